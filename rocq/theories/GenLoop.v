(** The bits emitted by a compressor main loop, for any template choice, form a
    stream that denotes the input blocks. *)
From Coq Require Import ZArith List Bool Lia.
From Verif Require Import SpecBits SpecCrc Spec842 CBase BitsLemmas CrcModel CrcProofs
  SerialCompModel SerialWriter SerialDict SerialIdeal SerialComp SerialValid SerialFacts.
Import ListNotations.
Open Scope Z_scope.

Section Gen.
(** [bits s b]: the bits emitted for the nonzero block [b] in state [s];
    [nx c s b pos]: the next state ([c]: a template was chosen for [b]). *)
Variable St : Type.
Variable bits : St -> list Z -> list bool.
Variable nx : bool -> St -> list Z -> nat -> St.

Definition gblk (s : St) (b : list Z) : list bool := if be_val b =? 0 then bits_of 5 0x1c else bits s b.
Fixpoint gloop (s : St) (pos : nat) (blocks : list (list Z)) (last : option (list Z)) (rc : Z) : list bool * Z :=
  match blocks with
  | [] => ([], rc)
  | b :: bs =>
    if same last b then
      let s' := nx false s b pos in
      if rc + 1 <=? 63 then gloop s' (pos + 8) bs (Some b) (rc + 1)
      else let '(B, r) := gloop s' (pos + 8) bs (Some b) 0 in (rep_bits (rc + 1) ++ B, r)
    else
      let s' := nx (negb (be_val b =? 0)) s b pos in
      let '(B, r) := gloop s' (pos + 8) bs (Some b) 0 in
      (rep_bits_opt rc ++ gblk s b ++ B, r)
  end.
Definition gbits (s0 : St) (x : list Z) : list bool :=
  let '(B, r) := gloop s0 0 (blocks_of x) None 0 in
  B ++ rep_bits_opt r ++ bits_of 5 0x1e ++ bits_of 32 (crc32 x).

Variable Inv : list Z -> St -> Prop.
Hypothesis Inv_nx : forall c pre s b q, length pre = (8 * q)%nat -> Inv pre s -> length b = 8%nat -> is_bytes b ->
  Inv (pre ++ b) (nx c s b (length pre)).
Hypothesis bits_stream : forall sw pre s b q bs x rest, is_bytes pre -> is_bytes b -> length b = 8%nat -> Inv pre s ->
  length pre = (8 * q)%nat -> stream sw (pre ++ b) bs x rest -> stream sw pre (bits s b ++ bs) x rest.
Hypothesis bits_len : forall pre s b, Inv pre s -> length b = 8%nat -> lenZ (bits s b) <= 69.

Lemma gblk_stream sw pre s b q bs x rest : is_bytes pre -> is_bytes b -> length b = 8%nat -> Inv pre s ->
  length pre = (8 * q)%nat -> stream sw (pre ++ b) bs x rest -> stream sw pre (gblk s b ++ bs) x rest.
Proof.
  intros Hpre Hb Lb Hs Hq HS. unfold gblk. destruct (Z.eqb_spec (be_val b) 0) as [E|E].
  - apply st_zeros. now rewrite <- (zero_block b).
  - eapply bits_stream; eauto.
Qed.

Lemma gloop_stream sw blocks : forall pre s last rc out,
  is_bytes pre -> Forall (fun b => length b = 8%nat /\ is_bytes b) blocks ->
  (exists q, length pre = (8 * q)%nat) -> Inv pre s -> last_ok last pre -> 0 <= rc <= 63 ->
  pend rc pre out -> (0 < rc -> last <> None) ->
  let '(B, r) := gloop s (length pre) blocks last rc in
  0 <= r <= 63 /\
  exists out', pend r (pre ++ concat blocks) out' /\
    forall bs x rest, stream sw out' bs x rest -> stream sw out (B ++ bs) x rest.
Proof.
  induction blocks as [|b bs IH]; intros pre s last rc out Hpre Hbl [q Hq] Hds Hlast Hrc Hpend Hnn.
  - cbn [gloop concat]. split; auto. exists out. rewrite app_nil_r. auto.
  - inversion Hbl as [|? ? [Lb Bb] Hbl']; subst. cbn [gloop concat].
    assert (LP : length (pre ++ b) = (length pre + 8)%nat) by (rewrite app_length; lia).
    assert (IH' : forall c rc1 out1, 0 <= rc1 <= 63 -> pend rc1 (pre ++ b) out1 ->
      let '(B, r) := gloop (nx c s b (length pre)) (length pre + 8) bs (Some b) rc1 in
      0 <= r <= 63 /\
      exists out', pend r (pre ++ b ++ concat bs) out' /\
        forall bs x rest, stream sw out' bs x rest -> stream sw out1 (B ++ bs) x rest).
    { intros c rc1 out1 R1 P1. rewrite <- LP, app_assoc. apply IH; auto.
      - apply is_bytes_app. auto.
      - exists (S q). lia.
      - eapply Inv_nx; eauto.
      - cbn. split; [lia|]. split; auto. symmetry. now apply last8_app.
      - discriminate. }
    (* flushing the pending repeats *)
    assert (FL : forall rc', 1 <= rc' <= 64 -> (8 <= length out)%nat ->
      forall y x rest, stream sw (out ++ copies (Z.to_nat rc') (last8 out)) y x rest -> stream sw out (rep_bits rc' ++ y) x rest).
    { intros rc' R L y x rest HS. unfold rep_bits. rewrite <- app_assoc. apply st_repeat; [lia|auto|].
      replace (Z.to_nat (rc' - 1) + 1)%nat with (Z.to_nat rc') by lia. exact HS. }
    destruct (same last b) eqn:SM.
    + destruct last as [l|]; [|discriminate]. cbn [same] in SM. apply Z.eqb_eq in SM.
      cbn [last_ok] in Hlast. destruct Hlast as (L8 & -> & Bl).
      destruct (pend_last8 rc pre out ltac:(lia) Hpend L8) as [LO E8].
      assert (Eb : b = last8 out).
      { rewrite <- E8. apply be_val_inj; auto. rewrite last8_length; auto. }
      assert (PE : pre ++ b = out ++ copies (Z.to_nat (rc + 1)) (last8 out)).
      { replace (Z.to_nat (rc + 1)) with (S (Z.to_nat rc)) by lia. rewrite copies_S_r, app_assoc.
        destruct Hpend as [<- _]. now rewrite Eb. }
      destruct (Z.leb_spec (rc + 1) 63).
      * apply IH'; [lia|]. split; auto.
      * specialize (IH' false 0 (pre ++ b) ltac:(lia)).
        destruct (gloop _ (length pre + 8) bs (Some b) 0) as [B r].
        destruct IH' as (R & out' & P' & S'). { split; [cbn; now rewrite app_nil_r|lia]. }
        split; auto. exists out'. split; auto. intros y x rest HS. rewrite <- app_assoc.
        apply FL; [lia|auto|]. rewrite <- PE. auto.
    + specialize (IH' (negb (be_val b =? 0)) 0 (pre ++ b) ltac:(lia)).
      destruct (gloop _ (length pre + 8) bs (Some b) 0) as [B r].
      destruct IH' as (R & out' & P' & S'). { split; [cbn; now rewrite app_nil_r|lia]. }
      split; auto. exists out'. split; auto. intros y x rest HS. rewrite <- !app_assoc.
      assert (HB : stream sw pre (gblk s b ++ B ++ y) x rest) by (eapply gblk_stream; eauto).
      unfold rep_bits_opt. destruct (Z.eqb_spec rc 0) as [->|NZ].
      * cbn [app]. destruct Hpend as [PE _]. cbn in PE. rewrite app_nil_r in PE. now subst.
      * destruct Hpend as [PE PL]. apply FL; [lia|apply PL; lia|]. now rewrite <- PE.
Qed.

Theorem gbits_stream sw s0 x rest : Inv [] s0 -> is_bytes x -> (length x mod 8 = 0)%nat ->
  stream sw [] (gbits s0 x ++ rest) x (bits_of 32 (crc32 x) ++ rest).
Proof.
  intros HI Hx Hm. unfold gbits.
  assert (P0 : pend 0 [] []) by (split; [reflexivity|lia]).
  assert (N0 : 0 < 0 -> @None (list Z) <> None) by lia.
  pose proof (gloop_stream sw (blocks_of x) [] s0 None 0 [] (Forall_nil _) (blocks_bytes x Hx)
     (ex_intro _ 0%nat eq_refl) HI Logic.I ltac:(lia) P0 N0) as L.
  change (length (@nil Z)) with 0%nat in L.
  destruct (gloop s0 0 (blocks_of x) None 0) as [B r].
  destruct L as (R & out' & [P PL] & S). cbn [app] in P. rewrite <- !app_assoc. apply S.
  assert (T : concat (blocks_of x) = x).
  { pose proof (tail_length x) as TL. rewrite Hm in TL. apply length_zero_iff_nil in TL.
    rewrite (blocks_tail x) at 2. rewrite TL. now rewrite app_nil_r. }
  rewrite T in P.
  unfold rep_bits_opt. destruct (Z.eqb_spec r 0) as [->|NZ].
  - cbn [app]. cbn in P. rewrite app_nil_r in P. rewrite <- P. apply st_end.
  - unfold rep_bits. rewrite <- app_assoc. apply st_repeat; [lia|apply PL; lia|].
    replace (Z.to_nat (r - 1) + 1)%nat with (Z.to_nat r) by lia. rewrite <- P. apply st_end.
Qed.

Lemma gloop_len blocks : Forall (fun b => length b = 8%nat /\ is_bytes b) blocks -> forall pre s last rc B r, 0 <= rc ->
  (exists q, length pre = (8 * q)%nat) -> Inv pre s ->
  gloop s (length pre) blocks last rc = (B, r) -> 0 <= r /\ lenZ B + 11 * r <= 69 * lenZ blocks + 11 * rc.
Proof.
  induction 1 as [|b bs [Hb Bb] HB IH]; intros pre s last rc B r Hrc [q Hq] HI H; cbn [gloop] in H.
  - apply pair_inj in H; destruct H as [<- <-]. unfold lenZ; cbn [length]; lia.
  - rewrite lenZ_cons.
    assert (LP : (length pre + 8)%nat = length (pre ++ b)) by (rewrite app_length; lia).
    assert (IH' : forall c rc1 B r, 0 <= rc1 -> gloop (nx c s b (length pre)) (length pre + 8) bs (Some b) rc1 = (B, r) ->
       0 <= r /\ lenZ B + 11 * r <= 69 * lenZ bs + 11 * rc1).
    { intros c rc1 B1 r1 R1 G. rewrite LP in G. eapply IH; [exact R1| | |exact G].
      - exists (S q). lia.
      - eapply Inv_nx; eauto. }
    destruct (same last b).
    + destruct (rc + 1 <=? 63).
      * apply IH' in H; lia.
      * destruct (gloop _ _ bs _ 0) as [B' r'] eqn:E. apply pair_inj in H; destruct H as [<- <-]. apply IH' in E; [|lia].
        rewrite lenZ_app, rep_bits_len. lia.
    + destruct (gloop _ _ bs _ 0) as [B' r'] eqn:E. apply pair_inj in H; destruct H as [<- <-]. apply IH' in E; [|lia].
      assert (GB : lenZ (gblk s b) <= 69). { unfold gblk. destruct (_ =? _). { rewrite lenZ_bits_of. lia. } eapply bits_len; eauto. }
      rewrite !lenZ_app. pose proof (rep_bits_opt_len rc Hrc). lia.
Qed.
Lemma gbits_len s0 x : Inv [] s0 -> is_bytes x -> (length x mod 8 = 0)%nat -> lenZ (gbits s0 x) <= 69 * (lenZ x / 8) + 37.
Proof.
  intros HI Hx Hm. unfold gbits. destruct (gloop s0 0 (blocks_of x) None 0) as [B r] eqn:E.
  apply (gloop_len (blocks_of x) (blocks_bytes x Hx) [] s0 None 0 B r ltac:(lia) (ex_intro _ 0%nat eq_refl) HI) in E.
  destruct E as [R0 E].
  assert (LB : lenZ (blocks_of x) = lenZ x / 8).
  { unfold blocks_of, lenZ. rewrite map_length, seq_length. rewrite Nat2Z.inj_div. reflexivity. }
  rewrite !lenZ_app, !lenZ_bits_of. pose proof (rep_bits_opt_len r R0). lia.
Qed.
End Gen.
