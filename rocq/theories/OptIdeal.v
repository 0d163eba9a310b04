(** The bits the optimized compressor emits for a block, and the proof that it
    emits exactly those. *)
From Coq Require Import ZArith List Bool Lia.
From Verif Require Import SpecBits SpecCrc Spec842 CBase BitsLemmas CrcModel CrcProofs OpcodesTable
  SerialCompModel SerialWriter SerialDict SerialIdeal SerialComp SerialValid SerialFacts
  OptCompModel OptWriter OptDict GenLoop.
Import ListNotations.
Open Scope Z_scope.

(** * Abstract templates over a look-up result [L b n] (index, or -1) *)
Section Acts.
Variable L : nat -> nat -> Z.
Variable blk : list Z.
Definition gact_bits (b : nat) (a : action) : list bool :=
  match a with D n => bytes_bits (slice b n blk) | I n => bits_of (index_bits n) (L b n) end.
Fixpoint gacts_bits (b : nat) (acts : list action) : list bool :=
  match acts with [] => [] | a :: r => gact_bits b a ++ gacts_bits (b + act_len a) r end.
Definition gact_ok (b : nat) (a : action) : bool := match a with D _ => true | I n => L b n >=? 0 end.
Fixpoint gacts_ok (b : nat) (acts : list action) : bool :=
  match acts with [] => true | a :: r => gact_ok b a && gacts_ok (b + act_len a) r end.

Lemma gacts_bits_len acts : forall b, (b + acts_len acts <= length blk)%nat -> lenZ (gacts_bits b acts) = acts_width acts.
Proof.
  induction acts as [|a acts IH]; intros b Hb; [reflexivity|]. cbn [gacts_bits acts_width fold_right]. fold (acts_width acts).
  cbn [acts_len fold_right] in Hb. fold (acts_len acts) in Hb. rewrite lenZ_app, IH by lia. f_equal.
  destruct a; cbn [gact_bits act_width act_len] in *.
  - unfold lenZ. rewrite bytes_bits_length, slice_length by lia. lia.
  - apply lenZ_bits_of.
Qed.
(** Look-ups that denote earlier output give well-formed arguments. *)
Lemma gacts_args pre : is_bytes blk -> length blk = 8%nat ->
  (forall b n, (n = 2 \/ n = 4 \/ n = 8)%nat -> (b + n <= 8)%nat -> 0 <= L b n ->
     exists p, refers (length (pre ++ firstn b blk)) n (L b n) p /\
       slice p n (pre ++ firstn b blk) = slice b n blk /\ 0 <= L b n < 2 ^ Z.of_nat (index_bits n)) ->
  forall acts b rest, Forall (fun a => act_size_ok a = true) acts ->
  (b + acts_len acts = 8)%nat -> gacts_ok b acts = true ->
  args (pre ++ firstn b blk) acts (gacts_bits b acts ++ rest) (pre ++ blk) rest.
Proof.
  intros Hblk Lb HL acts. induction acts as [|a acts IH]; intros b rest HA HE HO.
  - cbn in HE. replace b with 8%nat by lia. rewrite firstn_all2 by lia. cbn. apply args_nil.
  - inversion HA as [|? ? Ha HA']; subst. cbn [acts_len fold_right] in HE. fold (acts_len acts) in HE.
    cbn [gacts_ok] in HO. apply andb_true_iff in HO. destruct HO as [O1 O2].
    cbn [gacts_bits]. rewrite <- app_assoc.
    destruct a as [n|n]; cbn [gact_bits act_len gact_ok act_size_ok] in *.
    + apply args_data; auto using is_bytes_slice. { apply slice_length. lia. }
      rewrite <- app_assoc, firstn_slice_app by lia. apply IH; auto. lia.
    + assert (Hn : (n = 2 \/ n = 4 \/ n = 8)%nat) by (rewrite !orb_true_iff, !Nat.eqb_eq in Ha; tauto).
      apply Z.geb_le in O1.
      destruct (HL b n Hn ltac:(lia) O1) as (p & R & S & G).
      apply (args_index _ n _ p); auto. rewrite S, <- app_assoc, firstn_slice_app by lia. apply IH; auto. lia.
Qed.
End Acts.

(** An item that is the latest occupant of its slot is what its index denotes. *)
Lemma item_refers pre blk b n q i k : is_bytes pre -> is_bytes blk -> length blk = 8%nat ->
  length pre = (8 * q)%nat -> (n = 2 \/ n = 4 \/ n = 8)%nat -> (b + n <= 8)%nat ->
  latest (2 ^ index_bits n) (length (items n pre)) i k -> nth k (items n pre) 0 = be_val (slice b n blk) ->
  exists p, refers (length (pre ++ firstn b blk)) n i p /\
    slice p n (pre ++ firstn b blk) = slice b n blk /\ 0 <= i < 2 ^ Z.of_nat (index_bits n).
Proof.
  intros Hpre Hblk Lb Hq Hn Hb L E.
  set (N := (2 ^ index_bits n)%nat) in *.
  assert (NP : (0 < N)%nat) by (unfold N; destruct Hn as [->|[->| ->]]; cbn; lia).
  rewrite items_length in L.
  assert (DV : (length pre / n * n = length pre)%nat).
  { rewrite Hq. destruct Hn as [->|[->| ->]].
    - replace (8 * q)%nat with ((4 * q) * 2)%nat by lia. now rewrite Nat.div_mul by lia.
    - replace (8 * q)%nat with ((2 * q) * 4)%nat by lia. now rewrite Nat.div_mul by lia.
    - replace (8 * q)%nat with (q * 8)%nat by lia. now rewrite Nat.div_mul by lia. }
  destruct L as [LM LB]. rewrite nth_items in E by lia.
  assert (KN : (k * n + n <= length pre)%nat) by nia.
  assert (NZ : Z.of_nat N = 2 ^ Z.of_nat (index_bits n)) by (unfold N; destruct Hn as [->|[->| ->]]; reflexivity).
  assert (LFB : length (firstn b blk) = b) by (rewrite firstn_length; lia).
  exists (k * n)%nat. split; [|split].
  - unfold refers, window. rewrite app_length, LFB, Hq, <- NZ.
    assert (TT : 8 * (Z.of_nat (8 * q + b) / 8) = Z.of_nat (8 * q)).
    { replace (Z.of_nat (8 * q + b)) with (Z.of_nat b + Z.of_nat q * 8) by lia. rewrite Z.div_add by lia.
      rewrite Z.div_small by lia. lia. }
    rewrite TT. split; [|split].
    + rewrite <- LM. rewrite Nat2Z.inj_mul, (Z.mul_comm (Z.of_nat k)), Z.mul_mod_distr_l by lia.
      rewrite Nat2Z.inj_mod. lia.
    + lia.
    + nia.
  - rewrite slice_app_l by lia. apply be_val_inj; auto using is_bytes_slice.
    rewrite !slice_length by lia. reflexivity.
  - rewrite <- NZ, <- LM. pose proof (Nat.mod_upper_bound k N ltac:(lia)). lia.
Qed.

(** * Slots of dataAndIndices and validity *)
(** which of the seven look-ups serves the [n] bytes at offset [b] *)
Definition vslot (b n : nat) : nat :=
  match n with 2%nat => (b / 2)%nat | 4%nat => (4 + b / 4)%nat | _ => 6%nat end.
(** offsets at which a look-up of [n] bytes is made *)
Definition lk_pos (b n : nat) : bool :=
  match n with
  | 2%nat => (b =? 0)%nat || (b =? 2)%nat || (b =? 4)%nat || (b =? 6)%nat
  | 4%nat => (b =? 0)%nat || (b =? 4)%nat
  | 8%nat => (b =? 0)%nat
  | _ => false
  end.
Definition olook (v : list bool) (ix : list Z) (b n : nat) : Z :=
  if lk_pos b n && nth (vslot b n) v false then nth (vslot b n) ix 0 else -1.

Definition oacts (op : Z) : list action := match template op with Some a => a | None => [] end.
(** template chosen for a validity vector *)
Definition oop (v : list bool) : Z := match get_template (template_keys v) with Done op => op | _ => 0 end.

Definition act_slot (b : nat) (a : action) : Z :=
  match a with
  | D n => if (n =? 4)%nat && (b =? 2)%nat then 14 else Z.of_nat (vslot b n)
  | I n => 7 + Z.of_nat (vslot b n)
  end.
Definition act_pos (b : nat) (a : action) : bool :=
  match a with D n => lk_pos b n || (n =? 4)%nat && (b =? 2)%nat | I n => lk_pos b n end.
Fixpoint acts_pos (b : nat) (acts : list action) : bool :=
  match acts with [] => (b =? 8)%nat | a :: r => act_pos b a && acts_pos (b + act_len a) r end.
Fixpoint act_terms (b : nat) (acts : list action) : list (Z * Z) :=
  match acts with [] => [] | a :: r => (act_slot b a, acts_width r) :: act_terms (b + act_len a) r end.
Fixpoint vacts_ok (v : list bool) (b : nat) (acts : list action) : bool :=
  match acts with
  | [] => true
  | a :: r => match a with D _ => true | I n => nth (vslot b n) v false end && vacts_ok v (b + act_len a) r
  end.
Fixpoint terms_eqb (a b : list (Z * Z)) : bool :=
  match a, b with
  | [], [] => true
  | (x, y) :: a, (x', y') :: b => (x =? x') && (y =? y') && terms_eqb a b
  | _, _ => false
  end.
Lemma terms_eqb_eq a : forall b, terms_eqb a b = true -> a = b.
Proof.
  induction a as [|[x y] a IH]; intros [|[x' y'] b] H; try discriminate; auto.
  cbn [terms_eqb] in H. rewrite !andb_true_iff, !Z.eqb_eq in H. destruct H as [[-> ->] H]. now rewrite (IH b H).
Qed.

Definition op_check (op : Z) : bool :=
  let acts := oacts op in
  match template op with Some _ => true | None => false end &&
  (0 <=? op) && (op <? 26) && forallb act_size_ok acts && (acts_len acts =? 8)%nat && acts_pos 0 acts
  && (acts_width acts <=? 64) &&
  (if op =? 0 then acts_eqb acts [D 8]
   else match add_template_terms op with
        | Some (ts, ksh, total) =>
          terms_eqb ts (act_terms 0 acts) && (ksh =? acts_width acts) && (total =? 5 + acts_width acts) && (total <=? 64)
        | None => false
        end).
Lemma op_checks : forallb (fun k => op_check (Z.of_nat k)) (seq 0 26) = true.
Proof. vm_compute. reflexivity. Qed.

Definition vectors : list (list bool) :=
  let t := [true; false] in
  flat_map (fun a => flat_map (fun b => flat_map (fun c => flat_map (fun d => flat_map (fun e => flat_map (fun f =>
    map (fun g => [a; b; c; d; e; f; g]) t) t) t) t) t) t) t.
Lemma vectors_all a b c d e f g : In [a; b; c; d; e; f; g] vectors.
Proof. destruct a, b, c, d, e, f, g; vm_compute; tauto. Qed.
Definition vec_check (v : list bool) : bool :=
  match get_template (template_keys v) with
  | Done op => (0 <=? op) && (op <? 26) && vacts_ok v 0 (oacts op)
  | _ => false
  end.
Lemma vec_checks : forallb vec_check vectors = true.
Proof. vm_compute. reflexivity. Qed.

Lemma oop_ok v : length v = 7%nat -> get_template (template_keys v) = Done (oop v) /\
  0 <= oop v < 26 /\ vacts_ok v 0 (oacts (oop v)) = true.
Proof.
  intros Lv. destruct v as [|a [|b [|c [|d [|e [|f [|g [|]]]]]]]]; try discriminate.
  pose proof vec_checks as H. rewrite forallb_forall in H. specialize (H _ (vectors_all a b c d e f g)).
  unfold vec_check in H. unfold oop. destruct (get_template _) as [op| |]; try discriminate.
  rewrite !andb_true_iff, Z.leb_le, Z.ltb_lt in H. tauto.
Qed.
Lemma op_ok op : 0 <= op < 26 ->
  template op = Some (oacts op) /\ Forall (fun a => act_size_ok a = true) (oacts op) /\ acts_len (oacts op) = 8%nat /\
  acts_pos 0 (oacts op) = true /\ acts_width (oacts op) <= 64 /\
  ((op = 0 /\ oacts op = [D 8]) \/
   (op <> 0 /\ 5 + acts_width (oacts op) <= 64 /\
    add_template_terms op = Some (act_terms 0 (oacts op), acts_width (oacts op), 5 + acts_width (oacts op)))).
Proof.
  intros Ho. pose proof op_checks as H. rewrite forallb_forall in H. specialize (H (Z.to_nat op) ltac:(apply in_seq; lia)).
  cbv beta in H. rewrite Z2Nat.id in H by lia. unfold op_check in H. rewrite !andb_true_iff in H.
  destruct H as [[[[[[[T _] _] F] A] P] W] R].
  split. { unfold oacts. destruct (template op); [auto|discriminate]. }
  split. { apply Forall_forall. rewrite forallb_forall in F. auto. }
  split. { now apply Nat.eqb_eq. } split; auto. split. { now apply Z.leb_le. }
  destruct (Z.eqb_spec op 0).
  - left. split; auto. now apply acts_eqb_eq.
  - right. split; auto. destruct (add_template_terms op) as [[[ts k] t]|]; [|discriminate].
    rewrite !andb_true_iff, !Z.eqb_eq, Z.leb_le in R. destruct R as [[[R1 ->] ->] R4]. apply terms_eqb_eq in R1. subst ts. auto.
Qed.

Lemma vacts_gacts v ix : (forall i, (i < 7)%nat -> 0 <= nth i ix 0) -> forall acts b, acts_pos b acts = true -> vacts_ok v b acts = true ->
  gacts_ok (olook v ix) b acts = true.
Proof.
  intros Hix. induction acts as [|a acts IH]; intros b HP HV; auto. cbn [acts_pos vacts_ok gacts_ok] in *.
  apply andb_true_iff in HP, HV. destruct HP as [P1 P2], HV as [V1 V2]. rewrite IH, andb_true_r; auto.
  destruct a as [n|n]; cbn [gact_ok act_pos] in *; auto. unfold olook. rewrite P1, V1. cbn [andb].
  apply Z.geb_le. apply Hix. unfold lk_pos in P1. unfold vslot.
  destruct n as [|[|[|[|[|[|[|[|[|]]]]]]]]]; try discriminate; rewrite ?orb_true_iff, ?Nat.eqb_eq in P1;
    repeat (destruct P1 as [P1|P1]); subst; cbn; lia.
Qed.

(** * The look-ups of one block *)
Definition ofind (st : ostate) (blk : list Z) : list bool * list Z :=
  match ofind_index (set_hashes st (ohash (odata blk))) (odata blk) with Done r => r | _ => ([], []) end.
Definition obits (st : ostate) (blk : list Z) : list bool :=
  let '(v, ix) := ofind st blk in
  bits_of 5 (oop v) ++ gacts_bits (olook v ix) blk 0 (oacts (oop v)).
Definition onx (c : bool) (st : ostate) (b : list Z) (pos : nat) : ostate :=
  let st := if c then set_hashes st (ohash (odata b)) else st in
  match oupdate_hashtables st (odata b) (Z.of_nat pos) with Done s => s | _ => st end.

Lemma onx_ok (c : bool) pre st b q : length pre = (8 * q)%nat -> odict_ok pre st -> length b = 8%nat ->
  oupdate_hashtables (if c then set_hashes st (ohash (odata b)) else st) (odata b) (Z.of_nat (length pre)) = Done (onx c st b (length pre)) /\
  odict_ok (pre ++ b) (onx c st b (length pre)).
Proof.
  intros Hq H Hb. unfold onx.
  assert (H' : odict_ok pre (if c then set_hashes st (ohash (odata b)) else st)).
  { destruct c; auto. apply set_hashes_ok; auto. apply ohash_ok. }
  destruct (oupdate_ok pre _ b q Hq H' Hb) as (st' & -> & O). auto.
Qed.

Lemma ofind_ok pre st blk : odict_ok pre st -> length blk = 8%nat ->
  exists v ix, ofind_index (set_hashes st (ohash (odata blk))) (odata blk) = Done (v, ix) /\ ofind st blk = (v, ix) /\
    length v = 7%nat /\ length ix = 7%nat /\
    forall b n, lk_pos b n = true -> let i := vslot b n in
      (nth i v false = false -> nth i ix 0 = 0) /\
      (nth i v false = true -> exists k, latest (2 ^ index_bits n) (length (items n pre)) (nth i ix 0) k /\
         nth k (items n pre) 0 = be_val (slice b n blk)).
Proof.
  intros H Lb. assert (H' : odict_ok pre (set_hashes st (ohash (odata blk)))).
  { apply set_hashes_ok; auto. apply ohash_ok. }
  destruct H' as [F2 F4 F8 T2 T4 T8 (H2 & H4 & H8)].
  rewrite <- items_length in T2, T4, T8.
  unfold ofind. unfold ofind_index.
  set (st' := set_hashes st (ohash (odata blk))) in *.
  assert (X2 : forall i : nat, (i < 4)%nat -> exists b ix, ofind1 (o_t16 st') (o_f16 st') (nth i (o_hashes st') 0) (nth i (odata blk) 0) = Done (b, ix) /\
     (b = true -> exists k, latest 256 (length (items 2 pre)) ix k /\ nth k (items 2 pre) 0 = nth i (odata blk) 0) /\ (b = false -> ix = 0)).
  { intros i Hi. eapply ofind1_ok; eauto. lia. }
  assert (X4 : forall i : nat, (i = 4 \/ i = 5)%nat -> exists b ix, ofind1 (o_t32 st') (o_f32 st') (nth i (o_hashes st') 0) (nth i (odata blk) 0) = Done (b, ix) /\
     (b = true -> exists k, latest 512 (length (items 4 pre)) ix k /\ nth k (items 4 pre) 0 = nth i (odata blk) 0) /\ (b = false -> ix = 0)).
  { intros i Hi. eapply ofind1_ok; eauto. lia. }
  assert (X8 : exists b ix, ofind1 (o_t64 st') (o_f64 st') (nth 6 (o_hashes st') 0) (nth 6 (odata blk) 0) = Done (b, ix) /\
     (b = true -> exists k, latest 256 (length (items 8 pre)) ix k /\ nth k (items 8 pre) 0 = nth 6 (odata blk) 0) /\ (b = false -> ix = 0)).
  { eapply ofind1_ok; eauto. lia. }
  destruct (X2 0%nat ltac:(lia)) as (v0 & i0 & -> & V0 & W0). destruct (X2 1%nat ltac:(lia)) as (v1 & i1 & -> & V1 & W1).
  destruct (X2 2%nat ltac:(lia)) as (v2 & i2 & -> & V2 & W2). destruct (X2 3%nat ltac:(lia)) as (v3 & i3 & -> & V3 & W3).
  destruct (X4 4%nat ltac:(auto)) as (v4 & i4 & -> & V4 & W4). destruct (X4 5%nat ltac:(auto)) as (v5 & i5 & -> & V5 & W5).
  destruct X8 as (v6 & i6 & -> & V6 & W6).
  rewrite !bind_done. eexists. eexists. split; [reflexivity|]. split; [reflexivity|]. split; [reflexivity|]. split; [reflexivity|].
  assert (E8 : slice 0 8 blk = blk) by (unfold slice; cbn [skipn]; apply firstn_all2; lia).
  intros b n HP. cbv zeta. unfold lk_pos in HP. unfold vslot.
  destruct n as [|[|[|[|[|[|[|[|[|]]]]]]]]]; try discriminate; rewrite ?orb_true_iff, ?Nat.eqb_eq in HP;
    repeat (destruct HP as [HP|HP]); subst b; cbn [index_bits]; rewrite ?E8;
    try change (0 / 2)%nat with 0%nat; try change (2 / 2)%nat with 1%nat; try change (4 / 2)%nat with 2%nat; try change (6 / 2)%nat with 3%nat;
    try change (4 + 0 / 4)%nat with 4%nat; try change (4 + 4 / 4)%nat with 5%nat; cbn [nth];
    (split; [assumption|]); assumption.
Qed.

Lemma olook_refers pre st blk q v ix : odict_ok pre st -> is_bytes pre -> is_bytes blk -> length blk = 8%nat -> length pre = (8 * q)%nat ->
  ofind st blk = (v, ix) ->
  forall b n, (n = 2 \/ n = 4 \/ n = 8)%nat -> (b + n <= 8)%nat -> 0 <= olook v ix b n ->
     exists p, refers (length (pre ++ firstn b blk)) n (olook v ix b n) p /\
       slice p n (pre ++ firstn b blk) = slice b n blk /\ 0 <= olook v ix b n < 2 ^ Z.of_nat (index_bits n).
Proof.
  intros H Hp Hb Lb Hq EF b n Hn Hbn HL.
  destruct (ofind_ok pre st blk H Lb) as (v' & ix' & _ & EF' & _ & _ & K). rewrite EF in EF'. apply pair_inj in EF'. destruct EF' as [-> ->].
  unfold olook in *. destruct (lk_pos b n) eqn:LK; cbn [andb] in *; [|lia].
  destruct (nth (vslot b n) v' false) eqn:V; [|lia].
  destruct (K b n LK) as [_ K2]. destruct (K2 V) as (k & L & E). eapply item_refers; eauto.
Qed.

(** * The chosen template is emitted *)
Definition sem (cap : Z) (m0 : list Z) (E B : list bool) (r : sres) : Prop :=
  (lenZ E + lenZ B < 64 * (cap + 1) /\ exists s', r = Done (true, s') /\ bsw cap m0 s' (E ++ B)) \/
  (64 * (cap + 1) <= lenZ E + lenZ B /\ exists s', r = Done (false, s') /\ bmem cap m0 (s_mem s')).

Lemma sem_write e cap m0 s E v n : bsw cap m0 s E -> 1 <= n <= 64 -> 0 <= v < 2 ^ n ->
  sem cap m0 E (bits_of (Z.to_nat n) v) (stream_write_bits e s v n).
Proof.
  intros H Hn Hv. unfold sem. rewrite lenZ_bits_of, Z2Nat.id by lia. now apply stream_write_bits_ok.
Qed.
Lemma sem_seq cap m0 E B1 B2 r (k : bitstream -> sres) : sem cap m0 E B1 r ->
  (forall s', bsw cap m0 s' (E ++ B1) -> sem cap m0 (E ++ B1) B2 (k s')) ->
  sem cap m0 E (B1 ++ B2) (andthen r k).
Proof.
  intros [(F & s' & -> & W)|(F & s' & -> & W)] Hk; unfold andthen; rewrite bind_done.
  - destruct (Hk s' W) as [(F2 & s2 & -> & W2)|(F2 & s2 & -> & W2)]; [left|right]; rewrite !lenZ_app in *; (split; [lia|]); eexists; split; eauto.
    now rewrite app_assoc.
  - right. rewrite lenZ_app. pose proof (lenZ_nonneg B2). split; [lia|]. eauto.
Qed.

Section Emit.
Variables (e : endian) (inp : list Z) (pos : nat) (blk : list Z).
Hypothesis Hinp : is_bytes inp.
Hypothesis Hpos : (pos + 8 <= length inp)%nat.
Hypothesis Hblk : blk = slice pos 8 inp.

Lemma oget_next_data_ok : oget_next_data e inp (Z.of_nat pos) = Done (odata blk).
Proof.
  unfold oget_next_data.
  pose proof (get32_ok e inp pos blk Hinp Hpos Hblk 0) as G0. pose proof (get32_ok e inp pos blk Hinp Hpos Hblk 4) as G4.
  pose proof (get16_ok e inp pos blk Hinp Hpos Hblk 0) as H0.
  pose proof (get16_ok e inp pos blk Hinp Hpos Hblk 2) as H2. pose proof (get16_ok e inp pos blk Hinp Hpos Hblk 4) as H4.
  pose proof (get16_ok e inp pos blk Hinp Hpos Hblk 6) as H6.
  change (Z.of_nat 0) with 0 in *. change (Z.of_nat 2) with 2 in *. change (Z.of_nat 4) with 4 in *. change (Z.of_nat 6) with 6 in *.
  rewrite Z.add_0_r in *.
  rewrite H0, bind_done, H2, bind_done, H4, bind_done, H6, bind_done, G0, bind_done, G4, bind_done by lia.
  rewrite (get64_ok e inp pos blk Hinp Hpos Hblk), bind_done. reflexivity.
Qed.

Variables (v : list bool) (ix : list Z).
Hypothesis Hix : length ix = 7%nat.
Hypothesis Hix0 : forall i, (i < 7)%nat -> 0 <= nth i ix 0.
Hypothesis HixB : forall b n, lk_pos b n = true -> nth (vslot b n) ix 0 < 2 ^ Z.of_nat (index_bits n).

Lemma oslot_ok b a : act_pos b a = true -> gact_ok (olook v ix) b a = true -> act_size_ok a = true ->
  oslot e inp (Z.of_nat pos) (odata blk) ix (act_slot b a) = Done (val (gact_bits (olook v ix) blk b a)).
Proof.
  intros HP HO HS. pose proof (blk_bytes inp pos blk Hinp Hblk) as BB. pose proof (blk_len inp pos blk Hpos Hblk) as LB.
  destruct a as [n|n]; cbn [act_pos gact_ok act_slot gact_bits] in *.
  - rewrite <- be_val_val by (now apply is_bytes_slice). unfold oslot.
    destruct ((n =? 4)%nat && (b =? 2)%nat) eqn:E.
    + apply andb_true_iff in E. rewrite !Nat.eqb_eq in E. destruct E as [-> ->]. change (14 =? 14) with true. cbv iota.
      pose proof (get32_ok e inp pos blk Hinp Hpos Hblk 2) as G. change (Z.of_nat 2) with 2 in G. apply G. lia.
    + rewrite orb_false_r in HP. unfold lk_pos in HP.
      assert (E8 : slice 0 8 blk = blk) by (unfold slice; cbn [skipn]; apply firstn_all2; lia).
      destruct n as [|[|[|[|[|[|[|[|[|]]]]]]]]]; try discriminate; rewrite ?orb_true_iff, ?Nat.eqb_eq in HP;
        repeat (destruct HP as [HP|HP]); subst b; rewrite ?E8; unfold vslot; 
        (match goal with |- (if ?c then _ else _) = _ => change c with false; cbv iota end);
        rewrite aget_ok by (rewrite lenZ_app; unfold lenZ; rewrite Hix; cbn; lia); reflexivity.
  - unfold olook in *. rewrite HP in *. cbn [andb] in *.
    destruct (nth (vslot b n) v false) eqn:V; [|discriminate].
    assert (VS : (vslot b n < 7)%nat).
    { unfold lk_pos in HP. unfold vslot. destruct n as [|[|[|[|[|[|[|[|[|]]]]]]]]]; try discriminate; rewrite ?orb_true_iff, ?Nat.eqb_eq in HP;
      repeat (destruct HP as [HP|HP]); subst; cbn; lia. }
    rewrite val_bits_of, Z.mod_small by (split; auto).
    unfold oslot. destruct (Z.eqb_spec (7 + Z.of_nat (vslot b n)) 14); [lia|].
    rewrite aget_ok by (rewrite lenZ_app; unfold lenZ; rewrite Hix; cbn [odata length]; lia).
    rewrite app_nth2 by (cbn [odata length]; lia). do 2 f_equal. cbn [odata length]. lia.
Qed.

Lemma or_terms_ok : forall acts b A, (b + acts_len acts = 8)%nat -> acts_pos b acts = true -> gacts_ok (olook v ix) b acts = true ->
  Forall (fun a => act_size_ok a = true) acts -> 0 <= A -> A * 2 ^ acts_width acts < 2 ^ 64 -> acts_width acts <= 63 ->
  or_terms e inp (Z.of_nat pos) (odata blk) ix (act_terms b acts) (A * 2 ^ acts_width acts) =
    Done (A * 2 ^ acts_width acts + val (gacts_bits (olook v ix) blk b acts)).
Proof.
  pose proof (blk_len inp pos blk Hpos Hblk) as LB.
  induction acts as [|a acts IH]; intros b A HL HP HO HS HA HW H63.
  - cbn. f_equal. unfold val. cbn. lia.
  - cbn [acts_len fold_right] in HL. fold (acts_len acts) in HL. cbn [acts_pos gacts_ok] in HP, HO.
    apply andb_true_iff in HP, HO. destruct HP as [P1 P2], HO as [O1 O2]. pose proof (Forall_inv HS) as S1. pose proof (Forall_inv_tail HS) as S2. cbv beta in S1.
    cbn [act_terms or_terms gacts_bits]. rewrite oslot_ok by auto. rewrite bind_done.
    change (acts_width (a :: acts)) with (act_width a + acts_width acts) in *.
    set (w := acts_width acts) in *. set (u := act_width a) in *.
    assert (W0 : 0 <= w). { pose proof (gacts_bits_len (olook v ix) blk acts (b + act_len a) ltac:(lia)) as X. fold w in X. rewrite <- X. apply lenZ_nonneg. }
    assert (U0 : lenZ (gact_bits (olook v ix) blk b a) = u).
    { unfold u. destruct a; cbn [gact_bits act_width act_len] in *. { unfold lenZ. rewrite bytes_bits_length, slice_length by lia. lia. } apply lenZ_bits_of. }
    pose proof (val_bound (gact_bits (olook v ix) blk b a)) as VB. fold (lenZ (gact_bits (olook v ix) blk b a)) in VB. rewrite U0 in VB.
    set (x := val (gact_bits (olook v ix) blk b a)) in *.
    assert (0 <= u) by (rewrite <- U0; apply lenZ_nonneg).
    assert (PW : 0 < 2 ^ w) by (apply pow2_pos; lia).
    rewrite shl64_ok by lia. rewrite bind_done.
    rewrite Z.pow_add_r in * by lia.
    assert (XW : x * 2 ^ w < 2 ^ u * 2 ^ w) by (apply Z.mul_lt_mono_pos_r; lia).
    assert (UW : 2 ^ u * 2 ^ w <= 2 ^ 64). { rewrite <- Z.pow_add_r by lia. apply Z.pow_le_mono_r; lia. }
    rewrite (Z.mod_small (x * 2 ^ w)) by nia.
    assert (LO : Z.lor (A * (2 ^ u * 2 ^ w)) (x * 2 ^ w) = (A * 2 ^ u + x) * 2 ^ w).
    { rewrite <- Z.pow_add_r by lia. rewrite lor_disjoint; [|lia|]. { rewrite Z.pow_add_r by lia. ring. }
      rewrite Z.pow_add_r by lia. nia. }
    rewrite LO.
    assert (A1 : A * 2 ^ u + x + 1 <= (A + 1) * 2 ^ u) by nia.
    assert (A2 : (A + 1) * (2 ^ u * 2 ^ w) <= 2 ^ 64).
    { assert (2 ^ 64 = 2 ^ (64 - (u + w)) * (2 ^ u * 2 ^ w)) as E64. { rewrite <- !Z.pow_add_r by lia. f_equal. lia. }
      rewrite E64 in HW |- *. apply Z.mul_le_mono_nonneg_r; [nia|]. apply Z.mul_lt_mono_pos_r in HW; nia. }
    rewrite IH; auto; try lia; try nia.
    f_equal. rewrite val_app. fold x. pose proof (gacts_bits_len (olook v ix) blk acts (b + act_len a) ltac:(lia)) as X. fold w in X.
    fold (lenZ (gacts_bits (olook v ix) blk (b + act_len a) acts)). rewrite X. ring.
Qed.

Variables (cap : Z) (m0 : list Z).
Lemma oadd_template_ok s E op : bsw cap m0 s E -> 0 <= op < 26 -> gacts_ok (olook v ix) 0 (oacts op) = true ->
  sem cap m0 E (bits_of 5 op ++ gacts_bits (olook v ix) blk 0 (oacts op))
    (oadd_template e s inp (Z.of_nat pos) (odata blk) ix op).
Proof.
  intros HS Ho HG. pose proof (blk_bytes inp pos blk Hinp Hblk) as BB. pose proof (blk_len inp pos blk Hpos Hblk) as LB.
  destruct (op_ok op Ho) as (T & F & AL & P & W & C). unfold oadd_template.
  destruct C as [[-> EA]|(NZ & W5 & EA)].
  - change (0 =? 0x00) with true. cbv iota. apply sem_seq.
    + apply (sem_write e cap m0 s E 0 5 HS); lia.
    + intros s' HS'. rewrite EA. cbn [gacts_bits gact_bits]. rewrite app_nil_r.
      rewrite aget_ok by (rewrite lenZ_app; unfold lenZ; rewrite Hix; cbn; lia). rewrite bind_done.
      change (nth (Z.to_nat 6) (odata blk ++ ix) 0) with (be_val blk).
      assert (E8 : slice 0 8 blk = blk) by (unfold slice; cbn [skipn]; apply firstn_all2; lia).
      rewrite E8. pose proof (be_val_bound blk BB) as BV. unfold lenZ in BV. rewrite LB in BV.
      pose proof (bits_of_be_val blk BB) as BE. rewrite LB in BE. rewrite <- BE.
      apply (sem_write e cap m0 s' _ (be_val blk) 64 HS'); [lia|exact BV].
  - destruct (Z.eqb_spec op 0x00); [contradiction|]. rewrite EA.
    set (w := acts_width (oacts op)) in *.
    pose proof (gacts_bits_len (olook v ix) blk (oacts op) 0 ltac:(lia)) as GL. fold w in GL.
    assert (W0 : 0 <= w) by (rewrite <- GL; apply lenZ_nonneg).
    assert (PW : 0 < 2 ^ w) by (apply pow2_pos; lia).
    assert (OW : op * 2 ^ w < 2 ^ (5 + w)) by (rewrite Z.pow_add_r by lia; nia).
    assert (LE64 : 2 ^ (5 + w) <= 2 ^ 64) by (apply Z.pow_le_mono_r; lia).
    rewrite shl64_ok by lia. rewrite bind_done, Z.mod_small by nia.
    unfold w at 1. rewrite or_terms_ok; auto; try (fold w; lia). fold w. rewrite bind_done.
    pose proof (val_bound (gacts_bits (olook v ix) blk 0 (oacts op))) as VB.
    fold (lenZ (gacts_bits (olook v ix) blk 0 (oacts op))) in VB. rewrite GL in VB.
    set (B := gacts_bits (olook v ix) blk 0 (oacts op)) in *.
    assert (BE : bits_of 5 op ++ B = bits_of (Z.to_nat (5 + w)) (op * 2 ^ w + val B)).
    { replace (Z.to_nat (5 + w)) with (5 + length B)%nat by (unfold lenZ in GL; lia).
      replace (2 ^ w) with (2 ^ Z.of_nat (length B)) by (f_equal; exact GL).
      rewrite bits_of_concat by apply val_bound. now rewrite bits_of_val. }
    rewrite BE. apply sem_write; auto; [lia|]. rewrite Z.pow_add_r by lia. nia.
Qed.
End Emit.
