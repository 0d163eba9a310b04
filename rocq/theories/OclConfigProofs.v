(** Proofs about the OpenCL kernel with other settings of its switches. *)
From Coq Require Import ZArith List Bool Lia.
From Verif Require Import SpecBits SpecCrc Spec842 SpecCalls CBase BitsLemmas SerialCompModel SerialDecompModel SerialIdeal SerialValid PureDecoder SerialDecomp SerialFacts OptCompModel OptDecompModel
  OptDecomp OclModel OclPure OclProofs SpecOcl OclItems OclProps OclExt SpecOptConfig OptConfigModel OptConfigProofs SpecOclConfig OclConfigModel.
Import ListNotations.
Open Scope Z_scope.

(** ** The settings of the repository *)
Lemma bind_ext {A B} (x : outcome A) (f g : A -> outcome B) : (forall a, f a = g a) -> bind x f = bind x g.
Proof. intros H. destruct x; cbn [bind]; auto. Qed.
Lemma kread_default e inp ilen p n : kread_with e true true inp ilen p n = kread_bits e inp ilen p n.
Proof.
  unfold kread_with, kread_bits. cbv zeta. destruct (k_bits p <? n); [|reflexivity]. rewrite ?andb_true_l. destruct (_ >? ilen); [reflexivity|].
  destruct (lookahead e inp ilen (k_in p + 6)); reflexivity.
Qed.
Lemma kget_default p s i f : kget_index_with true p s i f = kget_index p s i f. Proof. reflexivity. Qed.
Lemma kfields_default e fs : forall p params ob w b, kfields_with e true fs p params ob w b = kfields e fs p params ob w b.
Proof. reflexivity. Qed.
Lemma kdo_default e inp ilen olen p op : kdo_op_with e true true inp ilen olen p op = kdo_op e inp ilen olen p op.
Proof.
  unfold kdo_op_with, kdo_op. destruct (op >=? OPS_MAX); [reflexivity|]. rewrite kread_default. apply bind_ext. intros [v q].
  rewrite ?andb_true_l. destruct (negb (k_err q =? 0)); [reflexivity|]. rewrite kfields_default. apply bind_ext. intros [[w|] r]; [|reflexivity].
  rewrite ?andb_true_l. reflexivity.
Qed.
Lemma kstep_default e inp ilen olen p : kstep_with e true true inp ilen olen p = kstep e inp ilen olen p.
Proof.
  unfold kstep_with, kstep. rewrite kread_default. apply bind_ext. intros [op q]. rewrite ?andb_true_l.
  destruct (negb (k_err q =? 0)); [reflexivity|]. destruct (op =? OP_REPEAT).
  { rewrite kread_default. apply bind_ext. intros [v r]. rewrite ?andb_true_l. destruct (negb (k_err r =? 0)); [reflexivity|].
    destruct (k_out r =? 0); [reflexivity|]. cbv zeta. rewrite ?andb_true_l. reflexivity. }
  destruct (op =? OP_ZEROS). { rewrite ?andb_true_l. reflexivity. } destruct (op =? OP_END); [reflexivity|]. destruct (op =? OPS_MAX - 1).
  { rewrite kread_default. apply bind_ext. intros [v r]. rewrite kget_default, ?andb_true_l. destruct (negb (k_err r =? 0)); [reflexivity|].
    destruct (kget_index _ _ _ _) as [o s]. rewrite ?andb_true_l. reflexivity. }
  rewrite kdo_default. apply bind_ext. intros r. rewrite ?andb_true_l. reflexivity.
Qed.
Lemma kloop_default e f : forall inp ilen olen p, kloop_with e true true f inp ilen olen p = kloop e f inp ilen olen p.
Proof.
  induction f as [|f IH]; intros; cbn [kloop_with kloop]; [reflexivity|]. rewrite kstep_default. apply bind_ext. intros [[c|[|]] q]; auto.
Qed.
Lemma c99_default e inp ilen out olen : core_with e true true true inp ilen out olen = decompress_core e inp ilen out olen.
Proof.
  unfold core_with, decompress_core. rewrite Z.add_0_r.
  destruct (lookahead e inp ilen 0) as [l0| |]; cbn [bind]; [|reflexivity|reflexivity]. destruct (lookahead e inp ilen 1) as [l1| |]; cbn [bind]; [|reflexivity|reflexivity].
  destruct (lookahead e inp ilen 2) as [l2| |]; cbn [bind]; [|reflexivity|reflexivity]. destruct (lookahead e inp ilen 3) as [l3| |]; cbn [bind]; [|reflexivity|reflexivity].
  destruct (lookahead e inp ilen 4) as [l4| |]; cbn [bind]; [|reflexivity|reflexivity]. destruct (lookahead e inp ilen 5) as [l5| |]; cbn [bind]; [|reflexivity|reflexivity].
  rewrite kloop_default. apply bind_ext. intros [c q].
  destruct (negb (c =? 0)); [reflexivity|]. rewrite kread_default. apply bind_ext. intros [v r]. rewrite ?andb_true_l. reflexivity.
Qed.

(** ** Without the lookahead *)
Definition era (p : kstate) : kstate := mkK (k_in p) (k_bits p) (k_buffer p) [] (k_err p) (k_mem p) (k_out p).
Section Erase.
Variable e : endian.
Variables (inp inp2 : list Z) (ilen olen : Z).
Hypothesis Hw : forall i, 0 <= i -> exists w, lookahead e inp ilen i = Done w.
Hypothesis Hs : forall i, 0 <= i -> (i + 1) * 8 <= ilen -> exists w, load64 e inp2 (8 * i) = Done w /\ lookahead e inp ilen i = Done (swap_be_to_native64 e w).

Record inv (p : kstate) : Prop := mkInv {
  iv_in : 0 <= k_in p;
  iv_la : forall j, (j < 6)%nat -> lookahead e inp ilen (k_in p + Z.of_nat j) = Done (nth j (k_la p) 0) }.
Lemma inv_same p q : k_in q = k_in p -> k_la q = k_la p -> inv p -> inv q.
Proof. intros A B [C D]. constructor; rewrite ?A, ?B; auto. Qed.

Lemma era_read p n : inv p -> exists v q, kread_bits e inp ilen p n = Done (v, q) /\ inv q /\ kread_with e true false inp2 ilen (era p) n = Done (v, era q).
Proof.
  intros [I L]. unfold kread_bits, kread_with. cbn [era k_in k_bits k_buffer k_la k_err k_mem k_out andb]. cbv zeta.
  destruct (k_bits p <? n).
  - destruct (Z.gtb_spec ((k_in p + 1) * 8) ilen) as [G|G].
    + destruct (k_err p =? 0) eqn:E0; (eexists _, _; split; [reflexivity|split; [constructor; auto|reflexivity]]).
    + destruct (Hw (k_in p + 6) ltac:(lia)) as (l5 & E5). rewrite E5, bind_done.
      destruct (Hs (k_in p) I ltac:(lia)) as (w & EW & LW). rewrite EW. cbn [bind].
      pose proof (L 0%nat ltac:(lia)) as L0. rewrite Z.add_0_r, LW in L0. injection L0 as L0. rewrite <- L0.
      eexists _, _. split; [reflexivity|]. split; [|reflexivity]. constructor; cbn [k_in k_la]; [lia|].
      intros j Hj. replace (k_in p + 1 + Z.of_nat j) with (k_in p + Z.of_nat (S j)) by lia.
      destruct (Nat.eq_dec j 5) as [->|N]; [exact E5|]. rewrite (L (S j)) by lia. destruct j as [|[|[|[|[|j]]]]]; try reflexivity. lia.
  - eexists _, _. split; [reflexivity|]. split; [|reflexivity]. constructor; auto.
Qed.
Lemma era_get p s i f : kget_index_with true (era p) s i f = (fst (kget_index p s i f), era (snd (kget_index p s i f))) /\ (inv p -> inv (snd (kget_index p s i f))).
Proof. unfold kget_index_with, kget_index. cbn [era k_in k_bits k_buffer k_la k_err k_mem k_out andb]. cbv zeta. destruct (_ >? k_out p * 8); split; auto. intros []. constructor; auto. Qed.
Definition agree {A} (o1 o2 : outcome (A * kstate)) : Prop :=
  match o1 with Done (a, q) => inv q /\ o2 = Done (a, era q) | Undef => o2 = Undef | NoFuel => o2 = NoFuel end.
Lemma era_fields fs : forall p params ob w b, inv p -> agree (kfields e fs p params ob w b) (kfields_with e true fs (era p) params ob w b).
Proof.
  induction fs as [|[[is dst] nb] fs IH]; intros p params ob w b I; cbn [kfields_with kfields]. { split; auto. } cbv zeta.
  destruct (negb (is =? 0)); auto.
  match goal with |- context [kget_index p ?s ?i ?f] => destruct (era_get p s i f) as [-> J]; destruct (kget_index p s i f) as [o q] end.
  cbn [fst snd] in *. specialize (J I). cbn [andb era k_err k_mem]. destruct (negb (k_err q =? 0)). { split; auto. }
  destruct (load16 e (k_mem q) _) as [h0| |]; cbn [bind]; try reflexivity. destruct (load16 e (k_mem q) _) as [h1| |]; cbn [bind]; try reflexivity.
  apply IH; auto.
Qed.
Lemma era_do p op : inv p -> match kdo_op e inp ilen olen p op with Done q => inv q /\ kdo_op_with e true false inp2 ilen olen (era p) op = Done (era q)
  | Undef => kdo_op_with e true false inp2 ilen olen (era p) op = Undef | NoFuel => kdo_op_with e true false inp2 ilen olen (era p) op = NoFuel end.
Proof.
  intros I. unfold kdo_op, kdo_op_with. destruct (op >=? OPS_MAX). { split; auto. destruct I; constructor; auto. }
  destruct (era_read p (kopbits op) I) as (v & q & -> & Q & ->). rewrite !bind_done. cbn [andb]. change (k_err (era q)) with (k_err q).
  destruct (negb (k_err q =? 0)). { split; auto. }
  pose proof (era_fields (map (kfield op) [0; 1; 2; 3]) q v (kopbits op) 0 0 Q) as F. unfold agree in F.
  destruct (kfields _ _ _ _ _ _ _) as [[[w|] r]| |].
  - destruct F as [R ->]. rewrite !bind_done. cbn [andb era k_out k_mem k_in k_bits k_buffer k_la k_err]. destruct (_ >? olen). { split; auto. destruct R; constructor; auto. }
    destruct (store64 _ _ _ _); cbn [bind]; auto. split; auto. destruct R; constructor; auto.
  - destruct F as [R ->]. cbn [bind]. auto.
  - rewrite F. reflexivity.
  - rewrite F. reflexivity.
Qed.
Lemma era_repeat n : forall p, inv p -> match krepeat e n p with Done q => inv q /\ krepeat e n (era p) = Done (era q)
  | Undef => krepeat e n (era p) = Undef | NoFuel => krepeat e n (era p) = NoFuel end.
Proof.
  induction n as [|n IH]; intros p I; cbn [krepeat]; auto. cbn [era k_in k_bits k_buffer k_la k_err k_mem k_out].
  destruct (load64 _ _ _) as [w| |]; cbn [bind]; auto. destruct (store64 _ _ _ _) as [m| |]; cbn [bind]; auto.
  apply (IH (mkK (k_in p) (k_bits p) (k_buffer p) (k_la p) (k_err p) m (k_out p + 1))). destruct I; constructor; auto.
Qed.
Lemma era_step p : inv p -> agree (kstep e inp ilen olen p) (kstep_with e true false inp2 ilen olen (era p)).
Proof.
  intros I. unfold kstep, kstep_with. destruct (era_read p OP_BITS I) as (op & q & -> & Q & ->). rewrite !bind_done. cbn [andb].
  change (k_err (era q)) with (k_err q). destruct (negb (k_err q =? 0)). { split; auto. }
  destruct (op =? OP_REPEAT).
  { destruct (era_read q REPEAT_BITS Q) as (v & r & -> & R & ->). rewrite !bind_done. cbn [andb].
    change (k_err (era r)) with (k_err r). change (k_out (era r)) with (k_out r). destruct (negb (k_err r =? 0)). { split; auto. }
    destruct (k_out r =? 0). { split; auto. } cbv zeta. destruct (_ >? olen). { split; auto. }
    pose proof (era_repeat (Z.to_nat (v + 1)) r R) as P. destruct (krepeat e _ r) as [s| |].
    - destruct P as [S ->]. cbn [bind]. split; auto.
    - rewrite P. reflexivity.
    - rewrite P. reflexivity. }
  change (k_out (era q)) with (k_out q). change (k_mem (era q)) with (k_mem q).
  destruct (op =? OP_ZEROS).
  { destruct (_ >? olen). { split; auto. } destruct (store64 _ _ _ _); cbn [bind]; try reflexivity. split; auto. destruct Q; constructor; auto. }
  destruct (op =? OP_END). { split; auto. }
  destruct (op =? OPS_MAX - 1).
  { destruct (era_read q 8 Q) as (v & r & -> & R & ->). rewrite !bind_done. cbn [andb]. change (k_err (era r)) with (k_err r). destruct (negb (k_err r =? 0)). { split; auto. }
    destruct (era_get r 8 v I8_FIFO_SIZE) as [-> J]. destruct (kget_index r 8 v I8_FIFO_SIZE) as [o s]. cbn [fst snd] in *. specialize (J R).
    change (k_err (era s)) with (k_err s). change (k_out (era s)) with (k_out s). change (k_mem (era s)) with (k_mem s).
    destruct (negb (k_err s =? 0)). { split; auto. } destruct (_ >? olen). { split; auto. }
    destruct (load64 _ _ _); cbn [bind]; try reflexivity. destruct (store64 _ _ _ _); cbn [bind]; try reflexivity. split; auto. destruct J; constructor; auto. }
  pose proof (era_do q op Q) as D. destruct (kdo_op _ _ _ _ _ _) as [r| |].
  - destruct D as [R ->]. cbn [bind andb]. change (k_err (era r)) with (k_err r). destruct (negb (k_err r =? 0)); split; auto.
  - rewrite D. reflexivity.
  - rewrite D. reflexivity.
Qed.
Lemma era_loop f : forall p, inv p -> agree (kloop e f inp ilen olen p) (kloop_with e true false f inp2 ilen olen (era p)).
Proof.
  induction f as [|f IH]; intros p I; cbn [kloop kloop_with]; [reflexivity|]. pose proof (era_step p I) as S. unfold agree in S.
  destruct (kstep _ _ _ _ _) as [[[c|[|]] q]| |].
  - destruct S as [Q ->]. cbn [bind]. split; auto.
  - destruct S as [Q ->]. cbn [bind]. split; auto.
  - destruct S as [Q ->]. cbn [bind]. apply IH; auto.
  - rewrite S. reflexivity.
  - rewrite S. reflexivity.
Qed.

Lemma loop_mono eh la f : forall i il ol p, kloop_with e eh la f i il ol p <> NoFuel -> forall g, (f <= g)%nat -> kloop_with e eh la g i il ol p = kloop_with e eh la f i il ol p.
Proof.
  induction f as [|f IH]; intros i il ol p H g G; [destruct (H eq_refl)|]. destruct g as [|g]; [lia|]. cbn [kloop_with] in *.
  destruct (kstep_with _ _ _ _ _ _ _) as [[[c|[|]] q]| |]; cbn [bind] in *; auto. apply IH; auto. lia.
Qed.
Lemma era_core crc out : lenZ inp <= lenZ inp2 + 7 -> core_with e true true true inp ilen out olen <> NoFuel ->
  core_with e true false crc inp2 ilen out olen = core_with e true true crc inp ilen out olen.
Proof.
  intros HL. unfold core_with.
  destruct (Hw 0 ltac:(lia)) as (l0 & E0). destruct (Hw 1 ltac:(lia)) as (l1 & E1). destruct (Hw 2 ltac:(lia)) as (l2 & E2).
  destruct (Hw 3 ltac:(lia)) as (l3 & E3). destruct (Hw 4 ltac:(lia)) as (l4 & E4). destruct (Hw 5 ltac:(lia)) as (l5 & E5).
  rewrite E0, E1, E2, E3, E4, E5. cbn [bind]. rewrite Z.add_0_r, kloop_default.
  pose proof (era_loop (S (Z.to_nat (8 * lenZ inp))) (mkK 0 0 0 [l0; l1; l2; l3; l4; l5] 0 out 0)) as L.
  unfold agree in L. change (mkK 0 0 0 [] 0 out 0) with (era (mkK 0 0 0 [l0; l1; l2; l3; l4; l5] 0 out 0)).
  assert (I : inv (mkK 0 0 0 [l0; l1; l2; l3; l4; l5] 0 out 0)).
  { constructor; cbn [k_in k_la]; [lia|]. intros j Hj. destruct j as [|[|[|[|[|[|j]]]]]]; cbn [nth]; try assumption. lia. }
  specialize (L I). intros NF. rewrite (loop_mono true false (S (Z.to_nat (8 * lenZ inp)))); [| |lia].
  - destruct (kloop e _ inp ilen olen _) as [[c q]| |].
    + destruct L as [Q ->]. cbn [bind]. change (k_mem (era q)) with (k_mem q). change (k_out (era q)) with (k_out q). destruct (negb (c =? 0)); [reflexivity|]. destruct crc; [|reflexivity].
      destruct (era_read q CRC_BITS Q) as (v & r & K & R & ->). rewrite kread_default, K. reflexivity.
    + rewrite L. reflexivity.
    + rewrite L. reflexivity.
  - destruct (kloop e _ inp ilen olen _) as [[c q]| |].
    + destruct L as [_ ->]. discriminate.
    + rewrite L. discriminate.
    + destruct (NF eq_refl).
Qed.
End Erase.

(** ** Larger limits, or none: what succeeds still does. *)
Section Lax.
Variable e : endian.
Variables (inp : list Z) (ilen olen : Z) (eh : bool) (ilen2 olen2 : Z).
Hypothesis Hlax : eh = false \/ (ilen <= ilen2 /\ olen <= olen2).
Lemma lax_i x : (x >? ilen) = false -> eh && (x >? ilen2) = false.
Proof. destruct Hlax as [->|[A B]]; auto. rewrite !Z.gtb_ltb, !Z.ltb_ge. intros H. destruct eh; auto. cbn [andb]. apply Z.ltb_ge. lia. Qed.
Lemma lax_o x : (x >? olen) = false -> eh && (x >? olen2) = false.
Proof. destruct Hlax as [->|[A B]]; auto. rewrite !Z.gtb_ltb, !Z.ltb_ge. intros H. destruct eh; auto. cbn [andb]. apply Z.ltb_ge. lia. Qed.
Lemma lax_0 b : b = false -> eh && b = false. Proof. intros ->. now destruct eh. Qed.
Lemma err0 p : negb (k_err p =? 0) = false -> k_err p = 0.
Proof. intros H. apply negb_false_iff in H. now apply Z.eqb_eq. Qed.

Lemma lax_read p n v q : kread_with e true false inp ilen p n = Done (v, q) -> k_err p = 0 -> k_err q = 0 -> kread_with e eh false inp ilen2 p n = Done (v, q).
Proof.
  unfold kread_with. cbv zeta. destruct (k_bits p <? n); auto. rewrite andb_true_l. destruct (_ >? ilen) eqn:G.
  - intros H E E'. rewrite E in H. injection H as _ <-. discriminate.
  - intros H _ _. rewrite (lax_i _ G). exact H.
Qed.
Lemma lax_get p s i f o q : kget_index_with true p s i f = (o, q) -> k_err q = 0 -> kget_index_with eh p s i f = (o, q).
Proof.
  unfold kget_index_with. cbv zeta. rewrite andb_true_l. destruct (_ >? k_out p * 8).
  - intros [= <- <-] H. discriminate.
  - intros H _. destruct eh; exact H.
Qed.
Lemma lax_fields fs : forall p params ob w b x q, kfields_with e true fs p params ob w b = Done (Some x, q) -> kfields_with e eh fs p params ob w b = Done (Some x, q).
Proof.
  induction fs as [|[[is dst] nb] fs IH]; intros p params ob w b x q; cbn [kfields_with]; auto. cbv zeta. destruct (negb (is =? 0)); [|apply IH].
  destruct (kget_index_with true _ _ _ _) as [o r] eqn:G. rewrite andb_true_l. destruct (negb (k_err r =? 0)) eqn:E; [discriminate|].
  rewrite (lax_get _ _ _ _ _ _ G (err0 _ E)), (lax_0 _ E).
  intros H. apply bind_inv in H. destruct H as (h0 & -> & H). apply bind_inv in H. destruct H as (h1 & -> & H). rewrite !bind_done. now apply IH.
Qed.
Lemma fields_err fs : forall p params ob w b x q, kfields_with e true fs p params ob w b = Done (x, q) -> k_err p = 0 -> x = None -> k_err q <> 0.
Proof.
  induction fs as [|[[is dst] nb] fs IH]; intros p params ob w b x q; cbn [kfields_with]. { intros [= <- <-] _ ?. discriminate. } cbv zeta.
  destruct (negb (is =? 0)); [|apply IH].
  destruct (kget_index_with true _ _ _ _) as [o r] eqn:G. rewrite andb_true_l. destruct (negb (k_err r =? 0)) eqn:E.
  - intros [= <- <-] _ _ E'. rewrite E' in E. discriminate.
  - intros H _. apply bind_inv in H. destruct H as (h0 & _ & H). apply bind_inv in H. destruct H as (h1 & _ & H). eapply IH; eauto. now apply err0.
Qed.
Lemma lax_do p op q : kdo_op_with e true false inp ilen olen p op = Done q -> k_err p = 0 -> k_err q = 0 -> kdo_op_with e eh false inp ilen2 olen2 p op = Done q.
Proof.
  unfold kdo_op_with. destruct (op >=? OPS_MAX). { intros [= <-] _ H. discriminate. }
  intros H E0 EQ. apply bind_inv in H. destruct H as ([v r] & R & H). rewrite andb_true_l in H. destruct (negb (k_err r =? 0)) eqn:E.
  { injection H as <-. rewrite EQ in E. discriminate. }
  rewrite (lax_read _ _ _ _ R E0 (err0 _ E)), bind_done, (lax_0 _ E). apply bind_inv in H. destruct H as ([[w|] s] & F & H).
  - rewrite (lax_fields _ _ _ _ _ _ _ _ F), bind_done. rewrite andb_true_l in H. destruct (_ >? olen) eqn:G. { injection H as <-. discriminate. } rewrite (lax_o _ G). exact H.
  - injection H as <-. destruct (fields_err _ _ _ _ _ _ _ _ F (err0 _ E) eq_refl EQ).
Qed.
Lemma get_err p s i f o q : kget_index_with true p s i f = (o, q) -> k_err p = 0 -> k_err q = 0 -> q = p.
Proof. unfold kget_index_with. cbv zeta. rewrite andb_true_l. destruct (_ >? k_out p * 8); intros [= <- <-] H K; auto. discriminate. Qed.
Lemma lax_step p b q : kstep_with e true false inp ilen olen p = Done (inr b, q) -> k_err p = 0 -> kstep_with e eh false inp ilen2 olen2 p = Done (inr b, q) /\ k_err q = 0.
Proof.
  unfold kstep_with. intros H E0. apply bind_inv in H. destruct H as ([op r] & R & H). rewrite andb_true_l in H. destruct (negb (k_err r =? 0)) eqn:E; [discriminate|].
  pose proof (err0 _ E) as E1. rewrite (lax_read _ _ _ _ R E0 E1), bind_done, (lax_0 _ E). destruct (op =? OP_REPEAT).
  { apply bind_inv in H. destruct H as ([v s] & R2 & H). rewrite !andb_true_l in H. destruct (negb (k_err s =? 0)) eqn:E2; [discriminate|].
    rewrite (lax_read _ _ _ _ R2 E1 (err0 _ E2)), bind_done, (lax_0 _ E2). destruct (k_out s =? 0) eqn:K; [discriminate|]. rewrite (lax_0 false eq_refl).
    cbv zeta in *. rewrite ?andb_true_l in H. destruct (_ >? olen) eqn:G; [discriminate|]. rewrite (lax_o _ G). split; auto.
    apply bind_inv in H. destruct H as (t & P & H). injection H as _ <-. destruct (krepeat_fix _ _ _ _ P) as (_ & _ & ->). now apply err0. }
  destruct (op =? OP_ZEROS).
  { rewrite andb_true_l in H. destruct (_ >? olen) eqn:G; [discriminate|]. rewrite (lax_o _ G). split; auto.
    apply bind_inv in H. destruct H as (m & _ & H). injection H as _ <-. exact E1. }
  destruct (op =? OP_END). { split; auto. injection H as _ <-. exact E1. }
  destruct (op =? OPS_MAX - 1).
  { apply bind_inv in H. destruct H as ([v s] & R2 & H). rewrite andb_true_l in H. destruct (negb (k_err s =? 0)) eqn:E2; [discriminate|].
    rewrite (lax_read _ _ _ _ R2 E1 (err0 _ E2)), bind_done, (lax_0 _ E2). destruct (kget_index_with true _ _ _ _) as [o t] eqn:GI.
    rewrite !andb_true_l in H. destruct (negb (k_err t =? 0)) eqn:E3; [discriminate|]. rewrite (lax_get _ _ _ _ _ _ GI (err0 _ E3)), (lax_0 _ E3).
    destruct (_ >? olen) eqn:G; [discriminate|]. rewrite (lax_o _ G). split; auto.
    apply bind_inv in H. destruct H as (w & _ & H). apply bind_inv in H. destruct H as (m & _ & H). injection H as _ <-. now apply err0. }
  apply bind_inv in H. destruct H as (s & D & H). rewrite andb_true_l in H. destruct (negb (k_err s =? 0)) eqn:E2; [discriminate|].
  rewrite (lax_do _ _ _ D E1 (err0 _ E2)), bind_done, (lax_0 _ E2). split; auto. injection H as _ <-. now apply err0.
Qed.
Lemma step_code p c q : kstep_with e true false inp ilen olen p = Done (inl c, q) -> c <> 0.
Proof.
  unfold kstep_with. intros H. apply bind_inv in H. destruct H as ([op r] & _ & H). rewrite andb_true_l in H.
  assert (NZ : forall s, negb (k_err s =? 0) = true -> k_err s <> 0) by (intros s X; apply negb_true_iff, Z.eqb_neq in X; auto).
  destruct (negb (k_err r =? 0)) eqn:E. { injection H as <- _. auto. }
  destruct (op =? OP_REPEAT).
  { apply bind_inv in H. destruct H as ([v s] & _ & H). rewrite !andb_true_l in H. destruct (negb (k_err s =? 0)) eqn:E2. { injection H as <- _. auto. }
    destruct (k_out s =? 0). { injection H as <- _. discriminate. } cbv zeta in H. rewrite ?andb_true_l in H. destruct (_ >? olen). { injection H as <- _. discriminate. }
    apply bind_inv in H. destruct H as (t & _ & H). discriminate. }
  destruct (op =? OP_ZEROS).
  { rewrite andb_true_l in H. destruct (_ >? olen). { injection H as <- _. discriminate. } apply bind_inv in H. destruct H as (t & _ & H). discriminate. }
  destruct (op =? OP_END); [discriminate|]. destruct (op =? OPS_MAX - 1).
  { apply bind_inv in H. destruct H as ([v s] & _ & H). rewrite andb_true_l in H. destruct (negb (k_err s =? 0)) eqn:E2. { injection H as <- _. auto. }
    destruct (kget_index_with true _ _ _ _) as [o t]. rewrite !andb_true_l in H. destruct (negb (k_err t =? 0)) eqn:E3. { injection H as <- _. auto. }
    destruct (_ >? olen). { injection H as <- _. discriminate. }
    apply bind_inv in H. destruct H as (w & _ & H). apply bind_inv in H. destruct H as (m & _ & H). discriminate. }
  apply bind_inv in H. destruct H as (s & _ & H). rewrite andb_true_l in H. destruct (negb (k_err s =? 0)) eqn:E2; [|discriminate]. injection H as <- _. auto.
Qed.
Lemma lax_loop f : forall p q, kloop_with e true false f inp ilen olen p = Done (0, q) -> k_err p = 0 -> kloop_with e eh false f inp ilen2 olen2 p = Done (0, q) /\ k_err q = 0.
Proof.
  induction f as [|f IH]; intros p q H E0; cbn [kloop_with] in *; [discriminate|]. apply bind_inv in H. destruct H as ([[c|b] r] & S & H).
  - injection H as -> _. destruct (step_code _ _ _ S eq_refl).
  - destruct (lax_step _ _ _ S E0) as [-> E1]. rewrite bind_done. destruct b; auto. injection H as <-. auto.
Qed.
Lemma lax_core crc out n m : core_with e true false crc inp ilen out olen = Done (0, n, m) -> core_with e eh false crc inp ilen2 out olen2 = Done (0, n, m).
Proof.
  unfold core_with. rewrite !bind_done. intros H. apply bind_inv in H. destruct H as ([c p] & L & H).
  destruct (negb (c =? 0)) eqn:C. { injection H as -> _ _. discriminate. }
  apply negb_false_iff, Z.eqb_eq in C. subst c. destruct (lax_loop _ _ _ L eq_refl) as [-> E0]. rewrite bind_done. change (negb (0 =? 0)) with false. cbv iota.
  destruct crc; [|exact H]. apply bind_inv in H. destruct H as ([v q] & R & H). rewrite andb_true_l in H. destruct (negb (k_err q =? 0)) eqn:E.
  { injection H as K _ _. rewrite K in E. discriminate. }
  rewrite (lax_read _ _ _ _ R E0 (err0 _ E)), bind_done, (lax_0 _ E). exact H.
Qed.
End Lax.

(** ** The CRC, with the lookahead *)
Lemma core_crc e crc inp ilen out olen : is_bytes inp -> is_bytes out -> readable inp ilen -> 0 <= olen <= lenZ out -> olen < 2 ^ 63 ->
  match krun inp ilen (lenZ out) olen with
  | None => False
  | Some PUndef => core_with e true true crc inp ilen out olen = Undef
  | Some (PErr c) => c < 0 /\ let w := kfin inp ilen (lenZ out) olen in is_bytes w /\ lenZ w <= olen /\
      core_with e true true crc inp ilen out olen = Done (c, 0, w ++ skipn (length w) out)
  | Some (POk x rest) =>
    exists m, m = x ++ skipn (length x) out /\ is_bytes x /\ lenZ x <= olen /\
    core_with e true true crc inp ilen out olen = if crc then match rdb 32 rest with None => Done (- EINVAL, 0, m) | Some _ => Done (0, lenZ x, m) end else Done (0, lenZ x, m)
  end.
Proof.
  intros Hi Ho HR Hc H63. pose proof (core_pure e inp ilen out olen Hi Ho HR Hc H63) as CP. rewrite <- c99_default in CP. destruct crc.
  { destruct (krun _ _ _ _) as [[x rest|c|]|]; auto. destruct CP as (m & A & B & C & _ & D). exists m. auto. }
  destruct HR as [HL HR].
  unfold core_with in *. rewrite !(lookahead_ok e inp ilen Hi HR), !bind_done in * by lia.
  rewrite Z.add_0_r, kloop_default in *.
  assert (R0 : rdk inp ilen (mkK 0 0 0 [word inp ilen 0; word inp ilen 1; word inp ilen 2; word inp ilen 3; word inp ilen 4; word inp ilen 5] 0 out 0)
    (bytes_bits (whole (cin inp ilen)))).
  { constructor. { apply rdo_init. } cbn [k_in k_la]. intros j Hj. destruct j as [|[|[|[|[|[|j]]]]]]; try reflexivity. lia. }
  assert (S0 : skk out olen (mkK 0 0 0 [word inp ilen 0; word inp ilen 1; word inp ilen 2; word inp ilen 3; word inp ilen 4; word inp ilen 5] 0 out 0) []).
  { constructor; [|reflexivity]. cbn [k_mem k_out]. rewrite Z.mul_0_r, Z.sub_0_r. now apply sk_init. }
  pose proof (kloop_ok e inp ilen out olen Hi HL HR H63 (S (Z.to_nat (8 * lenZ inp))) _ _ _ R0 S0 eq_refl) as L. unfold krun, kfin in *. unfold cin in L.
  destruct (kd_loop _ (lenZ out) olen [] _) as [[x rest|c|]|] eqn:K.
  - destruct L as (k & -> & Hr & Hs & E0). rewrite bind_done. change (negb (0 =? 0)) with false. cbv iota.
    pose proof (skk_pos _ _ _ _ Hs) as PO. destruct Hs as [SK AL]. destruct CP as (m & -> & B & C & _).
    exists (x ++ skipn (length x) out). split; auto. split; auto. split; auto. pose proof (sk_mem _ _ _ _ SK) as SM. cbn [o_mem] in SM. rewrite SM. f_equal. f_equal. f_equal. lia.
  - destruct L as (C & k & EK & Hs). rewrite EK in *. rewrite !bind_done in *. destruct (Z.eqb_spec c 0); [lia|]. exact CP.
  - rewrite L. reflexivity.
  - destruct CP.
Qed.

Lemma crc_exact e crc inp ilen out olen x : is_bytes inp -> is_bytes out -> 0 <= ilen -> 8 * ((ilen + 7) / 8) <= lenZ inp -> 0 <= olen <= lenZ out -> olen < 2 ^ 63 ->
  (observed (core_with e true true crc inp ilen out olen) = Done (0, lenZ x, x) <-> kernel_842 crc (words_of inp ilen) x /\ lenZ x <= olen).
Proof.
  intros Hi Ho HL HR Hc H63. pose proof (core_crc e crc inp ilen out olen Hi Ho (readable_words _ _ HL HR) Hc H63) as C.
  assert (ilen <= lenZ inp). { pose proof (Z.div_mod (ilen + 7) 8 ltac:(lia)). pose proof (Z.mod_pos_bound (ilen + 7) 8 ltac:(lia)). lia. }
  unfold krun in C. rewrite whole_words in C by lia. set (bits := bytes_bits (words_of inp ilen)) in *.
  assert (FU : (length bits < S (Z.to_nat (8 * lenZ inp)))%nat).
  { unfold bits. rewrite bytes_bits_length. unfold words_of. rewrite firstn_length. unfold lenZ. lia. }
  destruct (kd_meaning (lenZ out) olen bits _ Hc FU) as (A1 & A2 & A3 & p & A4 & A5 & A6).
  split.
  - intros E. rewrite A4 in C. destruct p as [y rest|c|].
    + destruct C as (m & -> & B & F & D). destruct (A3 _ _ A4) as (ST & _). rewrite D in E. destruct crc.
      * destruct (rdb 32 rest) as [[v r]|] eqn:R; [|discriminate].
        cbn [observed] in E. rewrite firstn_pre in E. injection E as _ ->. split; auto. exists rest. split; auto. intros _. apply rdb_enough. eauto.
      * cbn [observed] in E. rewrite firstn_pre in E. injection E as _ ->. split; auto. exists rest. split; auto. discriminate.
    + destruct C as (CN & C). cbv zeta in C. destruct C as (_ & _ & C). rewrite C in E. cbn [observed] in E. injection E as -> _ _. lia.
    + rewrite C in E. discriminate.
  - intros ((rest & ST & L) & HX). rewrite (A1 _ _ ST HX) in C. destruct C as (m & -> & B & F & D). rewrite D. destruct crc.
    + specialize (L eq_refl). apply rdb_enough in L. destruct L as (v & r & ->). cbn [observed]. now rewrite firstn_pre.
    + cbn [observed]. now rewrite firstn_pre.
Qed.
Lemma crc_bounds e crc inp ilen out olen : is_bytes inp -> is_bytes out -> 0 <= ilen -> 8 * ((ilen + 7) / 8) <= lenZ inp -> 0 <= olen -> olen + 2 <= lenZ out -> olen < 2 ^ 63 ->
  exists ret n m, core_with e true true crc inp ilen out olen = Done (ret, n, m) /\
    (ret = 0 \/ ((ret = - EINVAL \/ ret = - ENOSPC) /\ n = 0)) /\ 0 <= n <= olen /\
    exists w, is_bytes w /\ lenZ w <= olen /\ m = w ++ skipn (length w) out.
Proof.
  intros Hi Ho HL HR Hc H2 H63. pose proof (core_crc e crc inp ilen out olen Hi Ho (readable_words _ _ HL HR) ltac:(lia) H63) as C.
  assert (ilen <= lenZ inp). { pose proof (Z.div_mod (ilen + 7) 8 ltac:(lia)). pose proof (Z.mod_pos_bound (ilen + 7) 8 ltac:(lia)). lia. }
  unfold krun in C. rewrite whole_words in C by lia. set (bits := bytes_bits (words_of inp ilen)) in *.
  assert (FU : (length bits < S (Z.to_nat (8 * lenZ inp)))%nat).
  { unfold bits. rewrite bytes_bits_length. unfold words_of. rewrite firstn_length. unfold lenZ. lia. }
  destruct (kd_meaning (lenZ out) olen bits _ ltac:(lia) FU) as (_ & _ & _ & p & A4 & A5 & A6). rewrite A4 in C. destruct p as [y rest|c|].
  - destruct C as (m & -> & B & F & D). pose proof (lenZ_nonneg y). rewrite D. destruct crc; [destruct (rdb 32 rest) as [[v r]|]|]; (eexists _, _, _; split; [reflexivity|]; split; [auto|]; split; [lia|eauto]).
  - destruct C as (CN & C). cbv zeta in C. destruct C as (B & F & ->). eexists _, _, _. split; [reflexivity|]. split; [right; auto|]. split; [lia|]. eauto.
  - specialize (A5 eq_refl). lia.
Qed.

(** ** Without the lookahead *)
Lemma core_fuel e inp ilen out olen : is_bytes inp -> is_bytes out -> readable inp ilen -> 0 <= olen <= lenZ out -> olen < 2 ^ 63 -> core_with e true true true inp ilen out olen <> NoFuel.
Proof.
  intros Hi Ho HR Hc H63 X. pose proof (core_pure e inp ilen out olen Hi Ho HR Hc H63) as C. rewrite c99_default in X.
  destruct (krun _ _ _ _) as [[x rest|c|]|]; auto.
  - destruct C as (m & _ & _ & _ & _ & C). rewrite X in C. destruct (rdb 32 rest); discriminate.
  - destruct C as (_ & C). cbv zeta in C. destruct C as (_ & _ & C). congruence.
  - congruence.
Qed.
Lemma load_pad e l k i : 0 <= i -> i + 8 <= lenZ l -> load64 e (l ++ k) i = load64 e l i.
Proof.
  intros H0 H. unfold lenZ in H. rewrite !load64_ok by (unfold lenZ; rewrite ?app_length; lia). f_equal. f_equal. apply slice_app_l. lia.
Qed.
Lemma look_all e inp ilen : is_bytes inp -> readable inp ilen -> forall i, 0 <= i -> exists w, lookahead e inp ilen i = Done w.
Proof. intros Hi [_ HR] i H. rewrite (lookahead_ok e inp ilen Hi HR) by auto. eauto. Qed.

(** The same outcome as with the lookahead, if that reads nothing outside the buffer. *)
Lemma c99_lookahead e crc inp ilen out olen : is_bytes inp -> is_bytes out -> 0 <= ilen -> 8 * ((ilen + 7) / 8) <= lenZ inp -> 0 <= olen <= lenZ out -> olen < 2 ^ 63 ->
  core_with e true false crc inp ilen out olen = core_with e true true crc inp ilen out olen.
Proof.
  intros Hi Ho HL HR Hc H63. pose proof (readable_words _ _ HL HR) as R. apply era_core.
  - now apply look_all.
  - intros i H0 H1. destruct R as [_ R]. pose proof (R i H0 ltac:(lia)) as B. unfold lookahead. destruct (Z.ltb_spec (i * 8) ilen); [|lia].
    rewrite load64_ok by lia. eexists. split; [reflexivity|]. now rewrite bind_done.
  - lia.
  - now apply core_fuel.
Qed.
(** Without it, 7 more bytes make no difference. *)
Lemma c99_pad e crc inp ilen out olen : is_bytes inp -> is_bytes out -> 0 <= ilen <= lenZ inp -> 0 <= olen <= lenZ out -> olen < 2 ^ 63 ->
  core_with e true false crc inp ilen out olen = core_with e true true crc (inp ++ repeat 0 7) ilen out olen.
Proof.
  intros Hi Ho HL Hc H63. assert (LI : lenZ (inp ++ repeat 0 7) = lenZ inp + 7) by (unfold lenZ; rewrite app_length, repeat_length; lia).
  assert (BI : is_bytes (inp ++ repeat 0 7)). { apply is_bytes_app. split; auto. apply Forall_forall. intros z IZ. apply repeat_spec in IZ. subst z. split; reflexivity || discriminate. }
  assert (R : readable (inp ++ repeat 0 7) ilen). { split; [lia|]. intros i H0 H1. rewrite LI. lia. }
  apply era_core.
  - now apply look_all.
  - intros i H0 H1. unfold lookahead. destruct (Z.ltb_spec (i * 8) ilen); [|lia]. rewrite load_pad by lia.
    rewrite load64_ok by lia. eexists. split; [reflexivity|]. now rewrite bind_done.
  - lia.
  - now apply core_fuel.
Qed.
Lemma pad_facts inp ilen : is_bytes inp -> 0 <= ilen <= lenZ inp -> is_bytes (inp ++ repeat 0 7) /\ 8 * ((ilen + 7) / 8) <= lenZ (inp ++ repeat 0 7) /\
  words_of (inp ++ repeat 0 7) ilen = firstn (Z.to_nat (8 * (ilen / 8))) inp.
Proof.
  intros Hi HL. split; [|split].
  - apply is_bytes_app. split; auto. apply Forall_forall. intros z IZ. apply repeat_spec in IZ. subst z. split; reflexivity || discriminate.
  - unfold lenZ in *. rewrite app_length, repeat_length. pose proof (Z.mul_div_le (ilen + 7) 8 ltac:(lia)). lia.
  - unfold words_of. rewrite firstn_app. pose proof (Z.mul_div_le ilen 8 ltac:(lia)). unfold lenZ in HL.
    replace (Z.to_nat (8 * (ilen / 8)) - length inp)%nat with 0%nat by lia. apply app_nil_r.
Qed.
Lemma c99_exact e crc inp ilen out olen x : is_bytes inp -> is_bytes out -> 0 <= ilen <= lenZ inp -> 0 <= olen <= lenZ out -> olen < 2 ^ 63 ->
  (observed (core_with e true false crc inp ilen out olen) = Done (0, lenZ x, x) <-> kernel_842 crc (firstn (Z.to_nat (8 * (ilen / 8))) inp) x /\ lenZ x <= olen).
Proof.
  intros Hi Ho HL Hc H63. rewrite c99_pad by auto. destruct (pad_facts inp ilen Hi HL) as (B & R & W). rewrite <- W. apply crc_exact; auto. lia.
Qed.
Lemma c99_bounds e crc inp ilen out olen : is_bytes inp -> is_bytes out -> 0 <= ilen <= lenZ inp -> 0 <= olen -> olen + 2 <= lenZ out -> olen < 2 ^ 63 ->
  exists ret n m, core_with e true false crc inp ilen out olen = Done (ret, n, m) /\
    (ret = 0 \/ ((ret = - EINVAL \/ ret = - ENOSPC) /\ n = 0)) /\ 0 <= n <= olen /\
    exists w, is_bytes w /\ lenZ w <= olen /\ m = w ++ skipn (length w) out.
Proof.
  intros Hi Ho HL Hc H2 H63. rewrite c99_pad by (auto; lia). destruct (pad_facts inp ilen Hi HL) as (B & R & W). apply crc_bounds; auto. lia.
Qed.
Lemma obs_done o n x : observed o = Done (0, n, x) -> exists m, o = Done (0, n, m) /\ firstn (Z.to_nat n) m = x.
Proof. destruct o as [[[r k] m]| |]; cbn [observed]; try discriminate. intros [= -> -> <-]. eauto. Qed.
Lemma c99_unchecked e eh crc inp k out x : is_bytes inp -> is_bytes out -> 0 <= k -> 8 * k <= lenZ inp -> lenZ x <= lenZ out -> lenZ out < 2 ^ 63 ->
  kernel_842 crc (firstn (Z.to_nat (8 * k)) inp) x -> forall ilen olen, eh = false \/ (8 * k <= ilen /\ lenZ x <= olen) ->
  observed (core_with e eh false crc inp ilen out olen) = Done (0, lenZ x, x).
Proof.
  intros Hi Ho H0 HK HX H63 KX ilen olen HL. pose proof (lenZ_nonneg x).
  assert (E : observed (core_with e true false crc inp (8 * k) out (lenZ x)) = Done (0, lenZ x, x)).
  { apply c99_exact; auto; try lia. replace (8 * (8 * k / 8)) with (8 * k); [auto with zarith|]. rewrite Z.mul_comm with (m := k), Z.div_mul; lia. }
  apply obs_done in E. destruct E as (m & E & M). rewrite (lax_core e inp (8 * k) (lenZ x) eh ilen olen HL crc out (lenZ x) m E). cbn [observed]. now rewrite M.
Qed.
Lemma kread_mem e eh la inp ilen p n v q : kread_with e eh la inp ilen p n = Done (v, q) -> k_mem q = k_mem p /\ k_out q = k_out p.
Proof.
  unfold kread_with. cbv zeta. destruct (k_bits p <? n). 2: { now intros [= _ <-]. }
  destruct (eh && _). { intros [= _ <-]. destruct (k_err p =? 0); auto. }
  intros H. apply bind_inv in H. destruct H as ([w l] & _ & H). injection H as _ <-. auto.
Qed.
Lemma c99_without_crc e eh la inp ilen out olen n m : core_with e eh la true inp ilen out olen = Done (0, n, m) -> core_with e eh la false inp ilen out olen = Done (0, n, m).
Proof.
  unfold core_with. intros H. apply bind_inv in H. destruct H as (l & -> & H). rewrite bind_done. apply bind_inv in H. destruct H as ([c p] & -> & H). rewrite bind_done.
  destruct (negb (c =? 0)); auto. apply bind_inv in H. destruct H as ([v q] & R & H). destruct (kread_mem _ _ _ _ _ _ _ _ _ R) as [M O].
  destruct (eh && negb (k_err q =? 0)) eqn:E.
  - injection H as K _ _. rewrite K in E. destruct eh; discriminate.
  - injection H as <- <-. now rewrite M, O.
Qed.

(** ** What optsw842_compress wrote *)
Lemma holds_kernel ccrc dcrc z x : (ccrc = true \/ dcrc = false) -> holds_842 ccrc z x -> kernel_842 dcrc z x.
Proof.
  intros H (rest & ST). eexists. split; [exact ST|]. intros ->. destruct H as [->|H]; [|discriminate]. rewrite app_length, bits_of_length. lia.
Qed.
Lemma c99_round_trip e e' strict ccrc eh la dcrc iaddr oaddr inp out olen n m out2 olen2 :
  is_bytes inp -> lenZ inp mod 8 = 0 -> inp <> [] -> iaddr mod 8 = 0 -> oaddr mod 8 = 0 -> is_bytes out -> 0 <= olen <= lenZ out ->
  compress_with e strict ccrc iaddr oaddr inp out olen = Done (0, n, m) ->
  (ccrc = true \/ dcrc = false) -> (eh = true \/ la = false) ->
  is_bytes out2 -> lenZ inp <= olen2 <= lenZ out2 -> lenZ out2 < 2 ^ 63 ->
  observed (core_with e' eh la dcrc (firstn (Z.to_nat n) m) n out2 olen2) = Done (0, lenZ inp, inp).
Proof.
  intros Hi H8 HN A1 A2 Ho Hc H C K Ho2 Hc2 H63. destruct (c98_output strict ccrc inp Hi H8 HN) as (z & BZ & HZ & Z8 & _ & X).
  destruct (X e iaddr oaddr out olen Ho Hc A1 A2) as [E _]. rewrite H in E. cbn [observed] in E. destruct (lenZ z <=? olen); [|discriminate].
  injection E as -> ->. apply (holds_kernel ccrc dcrc) in HZ; auto. pose proof (lenZ_nonneg z). pose proof (lenZ_nonneg inp).
  pose proof (Z.div_mod (lenZ z) 8 ltac:(lia)) as D8. rewrite Z8, Z.add_0_r in D8.
  assert (F : firstn (Z.to_nat (8 * (lenZ z / 8))) z = z). { rewrite <- D8. unfold lenZ. rewrite Nat2Z.id. apply firstn_all. }
  assert (NL : forall eh, observed (core_with e' eh false dcrc z (lenZ z) out2 olen2) = Done (0, lenZ inp, inp)).
  { intros eh'. apply (c99_unchecked e' eh' dcrc z (lenZ z / 8)); auto; try lia. now rewrite F. }
  destruct la; [|apply NL]. destruct K as [->|K]; [|discriminate]. rewrite <- c99_lookahead; auto; try lia.
  pose proof (Z.div_mod (lenZ z + 7) 8 ltac:(lia)). pose proof (Z.mod_pos_bound (lenZ z + 7) 8 ltac:(lia)). lia.
Qed.
