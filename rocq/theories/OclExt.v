(** What an iteration of the kernel depends on: its input only through the words it looks
    ahead at, the room only through the checks against it. *)
From Coq Require Import ZArith List Bool Lia.
From Verif Require Import SpecBits SpecCrc Spec842 CBase BitsLemmas SerialCompModel SerialDecompModel SerialIdeal OptCompModel OclModel.
Import ListNotations.
Open Scope Z_scope.

Lemma bind_inv {A B} (x : outcome A) (f : A -> outcome B) b : bind x f = Done b -> exists a, x = Done a /\ f a = Done b.
Proof. destruct x; cbn [bind]; intros; try discriminate. eauto. Qed.
Lemma store_bytes_len m i bs m' : store_bytes m i bs = Done m' -> length m' = length m /\ (is_bytes bs -> is_bytes m -> is_bytes m').
Proof.
  unfold store_bytes. destruct (Z.leb_spec 0 i); cbn [andb]; [|discriminate]. destruct (Z.leb_spec (i + lenZ bs) (lenZ m)); [|discriminate].
  intros E. injection E as <-. unfold lenZ in *. split.
  - rewrite !app_length, firstn_length, skipn_length. lia.
  - intros. rewrite !is_bytes_app. auto using is_bytes_firstn, is_bytes_skipn.
Qed.
Lemma native_bytes_bytes e n v : is_bytes (native_bytes e n v).
Proof. destruct e; cbn [native_bytes]; [apply is_bytes_rev|]; apply be_bytes_is_bytes. Qed.
Lemma store64_len e m i v m' : store64 e m i v = Done m' -> length m' = length m /\ (is_bytes m -> is_bytes m').
Proof. intros H. apply store_bytes_len in H. destruct H. split; auto using native_bytes_bytes. Qed.

(** The part of the state that the output steps keep. *)
Record kfix (p p' : kstate) : Prop := { kf_in : k_in p' = k_in p; kf_bits : k_bits p' = k_bits p; kf_buffer : k_buffer p' = k_buffer p; kf_la : k_la p' = k_la p }.
Lemma kfix_refl p : kfix p p. Proof. constructor; auto. Qed.
Lemma kfix_trans p q r : kfix p q -> kfix q r -> kfix p r. Proof. intros [] []. constructor; congruence. Qed.
Definition kmem_ok (p p' : kstate) : Prop := length (k_mem p') = length (k_mem p) /\ (is_bytes (k_mem p) -> is_bytes (k_mem p')).
Lemma kmem_refl p p' : k_mem p' = k_mem p -> kmem_ok p p'. Proof. intros E. split; rewrite E; auto. Qed.
Lemma kmem_trans p q r : kmem_ok p q -> kmem_ok q r -> kmem_ok p r. Proof. intros [] []. split; [congruence|auto]. Qed.

Section E.
Variable e : endian.

Lemma kread_inv inp ilen p n v p' : kread_bits e inp ilen p n = Done (v, p') ->
  k_in p <= k_in p' <= k_in p + 1 /\ k_mem p' = k_mem p /\ k_out p' = k_out p.
Proof.
  unfold kread_bits. destruct (k_bits p <? n).
  - destruct (_ >? ilen).
    + intros E. injection E as <- <-. destruct (k_err p =? 0); cbn [kraise k_in k_mem k_out]; repeat split; auto; lia.
    + intros E. apply bind_inv in E. destruct E as (l5 & _ & E). injection E as <- <-. cbn [k_in k_mem k_out]. repeat split; auto; lia.
  - intros E. injection E as <- <-. cbn [k_in k_mem k_out]. repeat split; auto; lia.
Qed.
Lemma kget_index_fix p s i f o p' : kget_index p s i f = (o, p') -> kfix p p' /\ k_mem p' = k_mem p /\ k_out p' = k_out p.
Proof.
  unfold kget_index. cbv zeta. destruct (_ >? k_out p * 8); intros E; injection E as <- <-; repeat split; auto.
Qed.
Lemma kfields_fix fs : forall p params ob w b r p', kfields e fs p params ob w b = Done (r, p') -> kfix p p' /\ k_mem p' = k_mem p /\ k_out p' = k_out p.
Proof.
  induction fs as [|[[ii ds] nb] fs IH]; intros p params ob w b r p' H; cbn [kfields] in H.
  - injection H as <- <-. repeat split; auto.
  - destruct (negb (ii =? 0)).
    + destruct (kget_index p ds _ _) as [o q] eqn:G. apply kget_index_fix in G. destruct G as (G1 & G2 & G3).
      destruct (negb (k_err q =? 0)).
      * injection H as <- <-. repeat split; auto; apply G1.
      * apply bind_inv in H. destruct H as (h0 & _ & H). apply bind_inv in H. destruct H as (h1 & _ & H).
        apply IH in H. destruct H as (F & M & O). split; [eapply kfix_trans; eauto|]. split; congruence.
    + now apply IH in H.
Qed.
Lemma krepeat_fix n : forall p p', krepeat e n p = Done p' -> kfix p p' /\ kmem_ok p p' /\ k_err p' = k_err p.
Proof.
  induction n as [|n IH]; intros p p' H; cbn [krepeat] in H.
  - injection H as <-. split; [apply kfix_refl|]. split; [now apply kmem_refl|auto].
  - apply bind_inv in H. destruct H as (w & _ & H). apply bind_inv in H. destruct H as (m & E & H). apply store64_len in E. apply IH in H.
    destruct H as ([F1 F2 F3 F4] & M & K). cbn [k_in k_bits k_buffer k_la k_mem k_err] in *. split; [constructor; auto|]. split; [|auto].
    eapply kmem_trans; [|exact M]. exact E.
Qed.

(** Two ways to read agree where the run [p .. p'] reads. *)
Definition reads_same (lo hi : Z) (inp : list Z) (ilen : Z) (inp' : list Z) (ilen' : Z) : Prop :=
  forall n q v q', kread_bits e inp ilen q n = Done (v, q') -> lo <= k_in q -> k_in q' <= hi -> kread_bits e inp' ilen' q n = Done (v, q').
Definition room_same {A} (olen olen' : Z) (r : A + bool) : Prop := olen' = olen \/ (olen <= olen' /\ exists b, r = inr b).
Lemma room_gtb {A} olen olen' (r : A + bool) x : room_same olen olen' r -> (exists b, r = inr b) -> (x >? olen) = false -> (x >? olen') = false.
Proof.
  intros H [b R] G. rewrite Z.gtb_ltb in *. apply Z.ltb_ge in G. apply Z.ltb_ge. destruct H as [->|[H _]]; lia.
Qed.
Lemma room_full {A} olen olen' (c : A) x : room_same olen olen' (inl c : A + bool) -> (x >? olen) = true -> (x >? olen') = true.
Proof. intros [->|[_ [b B]]]; [auto|discriminate]. Qed.

Lemma kdo_op_inv inp ilen olen p op p' : kdo_op e inp ilen olen p op = Done p' ->
  k_in p <= k_in p' /\ kmem_ok p p' /\
  forall inp' ilen' olen', reads_same (k_in p) (k_in p') inp ilen inp' ilen' ->
    (olen' = olen \/ (olen <= olen' /\ k_err p' = 0)) -> kdo_op e inp' ilen' olen' p op = Done p'.
Proof.
  unfold kdo_op. destruct (Z.geb_spec op OPS_MAX) as [G|G].
  { intros E. injection E as <-. split; [cbn [kraise k_in]; lia|]. split; [now apply kmem_refl|auto]. }
  intros H. apply bind_inv in H. destruct H as ([v p1] & R & H). pose proof (kread_inv _ _ _ _ _ _ R) as (RI & RM & RO).
  destruct (negb (k_err p1 =? 0)) eqn:E1.
  - injection H as <-. split; [lia|]. split; [now apply kmem_refl|].
    intros inp' ilen' olen' RS _. rewrite (RS _ _ _ _ R ltac:(lia) ltac:(lia)), bind_done, E1. reflexivity.
  - apply bind_inv in H. destruct H as ([r p2] & F & H). pose proof (kfields_fix _ _ _ _ _ _ _ _ F) as ([FI _ _ _] & FM & FO).
    destruct r as [word|].
    + destruct (k_out p2 * 8 + 8 >? olen) eqn:C.
      * injection H as <-. cbn [kraise k_in k_mem k_err]. split; [lia|]. split; [apply kmem_refl; cbn; congruence|].
        intros inp' ilen' olen' RS RO'. rewrite (RS _ _ _ _ R ltac:(lia) ltac:(lia)), bind_done, E1, F, bind_done.
        destruct RO' as [->|[_ X]]; [rewrite C; reflexivity|discriminate].
      * apply bind_inv in H. destruct H as (m & S & H). injection H as <-. pose proof (store64_len _ _ _ _ _ S) as SL. cbn [k_in k_mem k_err]. split; [lia|].
        split. { unfold kmem_ok. cbn [k_mem]. rewrite <- RM, <- FM. exact SL. }
        intros inp' ilen' olen' RS RO'. rewrite (RS _ _ _ _ R ltac:(lia) ltac:(lia)), bind_done, E1, F, bind_done.
        rewrite Z.gtb_ltb in *. apply Z.ltb_ge in C. replace (olen' <? k_out p2 * 8 + 8) with false by (symmetry; apply Z.ltb_ge; destruct RO' as [->|[? _]]; lia).
        rewrite S, bind_done. reflexivity.
    + injection H as <-. split; [lia|]. split; [apply kmem_refl; congruence|].
      intros inp' ilen' olen' RS RO'. rewrite (RS _ _ _ _ R ltac:(lia) ltac:(lia)), bind_done, E1, F, bind_done. reflexivity.
Qed.

Lemma kstep_inv inp ilen olen p r p' : kstep e inp ilen olen p = Done (r, p') ->
  k_in p <= k_in p' /\ kmem_ok p p' /\ r <> inl 0 /\
  forall inp' ilen' olen', reads_same (k_in p) (k_in p') inp ilen inp' ilen' -> room_same olen olen' r ->
    kstep e inp' ilen' olen' p = Done (r, p').
Proof.
  unfold kstep. intros H. apply bind_inv in H. destruct H as ([op p1] & R & H). pose proof (kread_inv _ _ _ _ _ _ R) as (RI & RM & RO).
  destruct (negb (k_err p1 =? 0)) eqn:E1.
  { injection H as <- <-. split; [lia|]. split; [now apply kmem_refl|]. split. { intros X. injection X as X. rewrite X in E1. discriminate. }
    intros inp' ilen' olen' RS _. rewrite (RS _ _ _ _ R ltac:(lia) ltac:(lia)), bind_done, E1. reflexivity. }
  destruct (op =? OP_REPEAT) eqn:O1.
  { apply bind_inv in H. destruct H as ([rep p2] & R2 & H). pose proof (kread_inv _ _ _ _ _ _ R2) as (RI2 & RM2 & RO2).
    destruct (negb (k_err p2 =? 0)) eqn:E2.
    { injection H as <- <-. split; [lia|]. split; [apply kmem_refl; congruence|]. split. { intros X. injection X as X. rewrite X in E2. discriminate. }
      intros inp' ilen' olen' RS _. rewrite (RS _ _ _ _ R ltac:(lia) ltac:(lia)), bind_done, E1, O1, (RS _ _ _ _ R2 ltac:(lia) ltac:(lia)), bind_done, E2. reflexivity. }
    destruct (k_out p2 =? 0) eqn:Z2.
    { injection H as <- <-. split; [lia|]. split; [apply kmem_refl; congruence|]. split; [discriminate|].
      intros inp' ilen' olen' RS _. rewrite (RS _ _ _ _ R ltac:(lia) ltac:(lia)), bind_done, E1, O1, (RS _ _ _ _ R2 ltac:(lia) ltac:(lia)), bind_done, E2, Z2. reflexivity. }
    destruct (_ >? olen) eqn:C.
    { injection H as <- <-. split; [lia|]. split; [apply kmem_refl; congruence|]. split; [discriminate|].
      intros inp' ilen' olen' RS RM'. rewrite (RS _ _ _ _ R ltac:(lia) ltac:(lia)), bind_done, E1, O1, (RS _ _ _ _ R2 ltac:(lia) ltac:(lia)), bind_done, E2, Z2.
      rewrite (room_full _ _ _ _ RM' C). reflexivity. }
    apply bind_inv in H. destruct H as (p3 & K & H). injection H as <- <-. destruct (krepeat_fix _ _ _ K) as ([KI _ _ _] & KM & _).
    split; [lia|]. split; [eapply kmem_trans; [|exact KM]; apply kmem_refl; congruence|]. split; [discriminate|].
    intros inp' ilen' olen' RS RM'. rewrite (RS _ _ _ _ R ltac:(lia) ltac:(lia)), bind_done, E1, O1, (RS _ _ _ _ R2 ltac:(lia) ltac:(lia)), bind_done, E2, Z2.
    rewrite (room_gtb _ _ _ _ RM' ltac:(eauto) C), K, bind_done. reflexivity. }
  destruct (op =? OP_ZEROS) eqn:O2.
  { destruct (_ >? olen) eqn:C.
    { injection H as <- <-. split; [lia|]. split; [apply kmem_refl; congruence|]. split; [discriminate|].
      intros inp' ilen' olen' RS RM'. rewrite (RS _ _ _ _ R ltac:(lia) ltac:(lia)), bind_done, E1, O1, O2, (room_full _ _ _ _ RM' C). reflexivity. }
    apply bind_inv in H. destruct H as (m & S & H). injection H as <- <-. pose proof (store64_len _ _ _ _ _ S) as SL. cbn [k_in].
    split; [lia|]. split. { unfold kmem_ok. cbn [k_mem]. rewrite <- RM. exact SL. } split; [discriminate|].
    intros inp' ilen' olen' RS RM'. rewrite (RS _ _ _ _ R ltac:(lia) ltac:(lia)), bind_done, E1, O1, O2, (room_gtb _ _ _ _ RM' ltac:(eauto) C), S, bind_done. reflexivity. }
  destruct (op =? OP_END) eqn:O3.
  { injection H as <- <-. split; [lia|]. split; [apply kmem_refl; congruence|]. split; [discriminate|].
    intros inp' ilen' olen' RS RM'. rewrite (RS _ _ _ _ R ltac:(lia) ltac:(lia)), bind_done, E1, O1, O2, O3. reflexivity. }
  destruct (op =? OPS_MAX - 1) eqn:O4.
  { apply bind_inv in H. destruct H as ([v p2] & R2 & H). pose proof (kread_inv _ _ _ _ _ _ R2) as (RI2 & RM2 & RO2).
    destruct (negb (k_err p2 =? 0)) eqn:E2.
    { injection H as <- <-. split; [lia|]. split; [apply kmem_refl; congruence|]. split. { intros X. injection X as X. rewrite X in E2. discriminate. }
      intros inp' ilen' olen' RS _. rewrite (RS _ _ _ _ R ltac:(lia) ltac:(lia)), bind_done, E1, O1, O2, O3, O4, (RS _ _ _ _ R2 ltac:(lia) ltac:(lia)), bind_done, E2. reflexivity. }
    destruct (kget_index p2 8 v I8_FIFO_SIZE) as [o p3] eqn:G. pose proof (kget_index_fix _ _ _ _ _ _ G) as ([GI _ _ _] & GM & GO).
    destruct (negb (k_err p3 =? 0)) eqn:E3.
    { injection H as <- <-. split; [lia|]. split; [apply kmem_refl; congruence|]. split. { intros X. injection X as X. rewrite X in E3. discriminate. }
      intros inp' ilen' olen' RS _. rewrite (RS _ _ _ _ R ltac:(lia) ltac:(lia)), bind_done, E1, O1, O2, O3, O4, (RS _ _ _ _ R2 ltac:(lia) ltac:(lia)), bind_done, E2, G, E3. reflexivity. }
    destruct (_ >? olen) eqn:C.
    { injection H as <- <-. split; [lia|]. split; [apply kmem_refl; congruence|]. split; [discriminate|].
      intros inp' ilen' olen' RS RM'. rewrite (RS _ _ _ _ R ltac:(lia) ltac:(lia)), bind_done, E1, O1, O2, O3, O4, (RS _ _ _ _ R2 ltac:(lia) ltac:(lia)), bind_done, E2, G, E3.
      rewrite (room_full _ _ _ _ RM' C). reflexivity. }
    apply bind_inv in H. destruct H as (w & L & H). apply bind_inv in H. destruct H as (m & S & H). injection H as <- <-. pose proof (store64_len _ _ _ _ _ S) as SL. cbn [k_in].
    split; [lia|]. split. { unfold kmem_ok. cbn [k_mem]. rewrite <- RM, <- RM2, <- GM. exact SL. } split; [discriminate|].
    intros inp' ilen' olen' RS RM'. cbn [k_in] in RS. rewrite (RS _ _ _ _ R ltac:(lia) ltac:(lia)), bind_done, E1, O1, O2, O3, O4, (RS _ _ _ _ R2 ltac:(lia) ltac:(lia)), bind_done, E2, G, E3.
    rewrite (room_gtb _ _ _ _ RM' ltac:(eauto) C), L, bind_done, S, bind_done. reflexivity. }
  apply bind_inv in H. destruct H as (p2 & K & H). destruct (kdo_op_inv _ _ _ _ _ _ K) as (KI & KM & KX).
  assert (KM' : kmem_ok p p2) by (eapply kmem_trans; [|exact KM]; now apply kmem_refl).
  assert (RX : forall inp' ilen' hi, k_in p2 <= hi -> reads_same (k_in p) hi inp ilen inp' ilen' -> reads_same (k_in p1) (k_in p2) inp ilen inp' ilen').
  { intros inp' ilen' hi HH RS n q v q' RR L1 L2. apply RS; auto; lia. }
  destruct (negb (k_err p2 =? 0)) eqn:E2; injection H as <- <-; (split; [lia|]); (split; [exact KM'|]).
  - split. { intros X. injection X as X. rewrite X in E2. discriminate. }
    intros inp' ilen' olen' RS RM'. rewrite (RS _ _ _ _ R ltac:(lia) ltac:(lia)), bind_done, E1, O1, O2, O3, O4.
    rewrite (KX inp' ilen' olen'), bind_done, E2; [reflexivity|eapply RX; [|exact RS]; lia|]. destruct RM' as [->|[_ [b B]]]; [auto|discriminate].
  - split; [discriminate|]. intros inp' ilen' olen' RS RM'. rewrite (RS _ _ _ _ R ltac:(lia) ltac:(lia)), bind_done, E1, O1, O2, O3, O4.
    rewrite (KX inp' ilen' olen'), bind_done, E2; [reflexivity|eapply RX; [|exact RS]; lia|].
    apply negb_false_iff, Z.eqb_eq in E2. destruct RM' as [->|[? _]]; auto.
Qed.

Lemma kloop_inv f : forall inp ilen olen p c p', kloop e f inp ilen olen p = Done (c, p') ->
  k_in p <= k_in p' /\ kmem_ok p p' /\
  forall inp' ilen' olen', reads_same (k_in p) (k_in p') inp ilen inp' ilen' -> (olen' = olen \/ (olen <= olen' /\ c = 0)) ->
    kloop e f inp' ilen' olen' p = Done (c, p').
Proof.
  induction f as [|f IH]; intros inp ilen olen p c p' H; cbn [kloop] in *; [discriminate|].
  apply bind_inv in H. destruct H as ([r p1] & K & H). destruct (kstep_inv _ _ _ _ _ _ K) as (KI & KM & KN & KX).
  destruct r as [c1|[]].
  - injection H as <- <-. split; auto. split; auto. intros inp' ilen' olen' RS RO. rewrite (KX inp' ilen' olen' RS), bind_done; auto.
    destruct RO as [->|[_ ->]]; [left; auto|congruence].
  - injection H as <- <-. split; auto. split; auto. intros inp' ilen' olen' RS RO. rewrite (KX inp' ilen' olen' RS), bind_done; auto.
    destruct RO as [->|[? _]]; [left; auto|right; eauto].
  - destruct (IH _ _ _ _ _ _ H) as (II & IM & IX). split; [lia|]. split; [eapply kmem_trans; eauto|].
    intros inp' ilen' olen' RS RO. rewrite (KX inp' ilen' olen'), bind_done.
    + apply IX; auto. intros n q v q' RR L1 L2. apply RS; auto; lia.
    + intros n q v q' RR L1 L2. apply RS; auto; lia.
    + destruct RO as [->|[? _]]; [left; auto|right; eauto].
Qed.
End E.
