(** The ideal encoder produces well-formed 842 streams that denote its input. *)
From Coq Require Import ZArith List Bool Lia.
From Verif Require Import SpecBits SpecCrc Spec842 CBase BitsLemmas CrcModel CrcProofs
  SerialCompModel SerialWriter SerialDict SerialIdeal SerialComp.
Import ListNotations.
Open Scope Z_scope.

Definition act_size_ok (a : action) : bool :=
  match a with D n | I n => (n =? 2)%nat || (n =? 4)%nat || (n =? 8)%nat end.
Definition acts_len (acts : list action) : nat := fold_right (fun a s => act_len a + s)%nat 0%nat acts.
Definition action_eqb (a b : action) : bool :=
  match a, b with D n, D m => (n =? m)%nat | I n, I m => (n =? m)%nat | _, _ => false end.
Fixpoint acts_eqb (a b : list action) : bool :=
  match a, b with [] , [] => true | x :: a, y :: b => action_eqb x y && acts_eqb a b | _, _ => false end.
Lemma acts_eqb_eq a : forall b, acts_eqb a b = true -> a = b.
Proof.
  induction a as [|x a IH]; intros [|y b] H; try discriminate; auto.
  cbn [acts_eqb] in H. apply andb_true_iff in H. destruct H as [H1 H2]. rewrite (IH b H2). f_equal.
  destruct x, y; cbn in H1; try discriminate; apply Nat.eqb_eq in H1; now subst.
Qed.

Definition row_check (i : nat) : bool :=
  match template (row_op i) with Some a => acts_eqb a (row_acts i) | None => false end
  && forallb act_size_ok (row_acts i) && (acts_len (row_acts i) =? 8)%nat.
Lemma rows_check : forallb row_check (seq 0 26) = true.
Proof. vm_compute. reflexivity. Qed.
Lemma row_template i : (i < 26)%nat ->
  template (row_op i) = Some (row_acts i) /\ Forall (fun a => act_size_ok a = true) (row_acts i) /\ acts_len (row_acts i) = 8%nat.
Proof.
  intros H. pose proof rows_check as A. rewrite forallb_forall in A. specialize (A i). rewrite in_seq in A.
  specialize (A ltac:(lia)). unfold row_check in A. rewrite !andb_true_iff in A. destruct A as [[A1 A2] A3].
  destruct (template (row_op i)) as [a|]; [|discriminate]. apply acts_eqb_eq in A1. subst a. split; auto.
  split. { apply Forall_forall. rewrite forallb_forall in A2. auto. } now apply Nat.eqb_eq.
Qed.

Lemma be_val_inj a b : is_bytes a -> is_bytes b -> length a = length b -> be_val a = be_val b -> a = b.
Proof. intros Ha Hb L E. rewrite <- (be_bytes_be_val a Ha), <- (be_bytes_be_val b Hb). now rewrite L, E. Qed.

Lemma lookup_refers pre ds blk b n q : is_bytes pre -> is_bytes blk -> length blk = 8%nat -> dicts_ok pre ds ->
  length pre = (8 * q)%nat -> (n = 2 \/ n = 4 \/ n = 8)%nat -> (b + n <= 8)%nat -> 0 <= lookup ds blk b n ->
  exists p, refers (length (pre ++ firstn b blk)) n (lookup ds blk b n) p /\
    slice p n (pre ++ firstn b blk) = slice b n blk /\ 0 <= lookup ds blk b n < 2 ^ Z.of_nat (index_bits n).
Proof.
  intros Hpre Hblk Lb Hds Hq Hn Hb H0.
  set (N := (2 ^ index_bits n)%nat).
  assert (NP : (0 < N)%nat) by (unfold N; destruct Hn as [->|[->| ->]]; cbn; lia).
  assert (DO : dict_ok N (items n pre) (dict_of ds n)).
  { destruct Hds as [d8 d4 d2]. unfold N. destruct Hn as [->|[->| ->]]; cbn [dict_of index_bits]; assumption. }
  destruct (find_index_spec N _ _ (be_val (slice b n blk)) NP DO) as [[_ (k & L & E)]|[M _]].
  2: { unfold lookup in H0. lia. }
  fold (lookup ds blk b n) in L. rewrite items_length in L.
  assert (DV : (length pre / n * n = length pre)%nat).
  { rewrite Hq. destruct Hn as [->|[->| ->]].
    - replace (8 * q)%nat with ((4 * q) * 2)%nat by lia. now rewrite Nat.div_mul by lia.
    - replace (8 * q)%nat with ((2 * q) * 4)%nat by lia. now rewrite Nat.div_mul by lia.
    - replace (8 * q)%nat with (q * 8)%nat by lia. now rewrite Nat.div_mul by lia. }
  destruct L as [LM LB]. rewrite nth_items in E by lia.
  assert (KN : (k * n + n <= length pre)%nat) by nia.
  assert (NZ : Z.of_nat N = 2 ^ Z.of_nat (index_bits n)) by (unfold N; destruct Hn as [->|[->| ->]]; reflexivity).
  assert (LFB : length (firstn b blk) = b) by (rewrite firstn_length; lia).
  exists (k * n)%nat. split; [|split].
  - unfold refers, window. rewrite app_length, LFB, Hq, <- NZ.
    assert (TT : 8 * (Z.of_nat (8 * q + b) / 8) = Z.of_nat (8 * q)).
    { replace (Z.of_nat (8 * q + b)) with (Z.of_nat b + Z.of_nat q * 8) by lia. rewrite Z.div_add by lia.
      rewrite Z.div_small by lia. lia. }
    rewrite TT. split; [|split].
    + rewrite <- LM. rewrite Nat2Z.inj_mul, (Z.mul_comm (Z.of_nat k)), Z.mul_mod_distr_l by lia.
      rewrite Nat2Z.inj_mod. lia.
    + lia.
    + nia.
  - rewrite slice_app_l by lia. apply be_val_inj; auto using is_bytes_slice.
    rewrite !slice_length by lia. reflexivity.
  - split; auto. rewrite <- NZ, <- LM. pose proof (Nat.mod_upper_bound k N ltac:(lia)). lia.
Qed.

Lemma firstn_slice_app (blk : list Z) b n : (b + n <= length blk)%nat -> firstn b blk ++ slice b n blk = firstn (b + n) blk.
Proof.
  intros _. symmetry. exact (slice_plus 0 b n blk).
Qed.

Lemma acts_args pre ds blk q : is_bytes pre -> is_bytes blk -> length blk = 8%nat -> dicts_ok pre ds ->
  length pre = (8 * q)%nat -> forall acts b rest, Forall (fun a => act_size_ok a = true) acts ->
  (b + acts_len acts = 8)%nat -> acts_ok ds blk b acts = true ->
  args (pre ++ firstn b blk) acts (acts_bits ds blk b acts ++ rest) (pre ++ blk) rest.
Proof.
  intros Hpre Hblk Lb Hds Hq acts. induction acts as [|a acts IH]; intros b rest HA HL HO.
  - cbn in HL. replace b with 8%nat by lia. rewrite firstn_all2 by lia. cbn. apply args_nil.
  - inversion HA as [|? ? Ha HA']; subst. cbn [acts_len fold_right] in HL. fold (acts_len acts) in HL.
    cbn [acts_ok] in HO. apply andb_true_iff in HO. destruct HO as [O1 O2].
    cbn [acts_bits]. rewrite <- app_assoc.
    destruct a as [n|n]; cbn [act_bits act_len act_ok act_size_ok] in *.
    + apply args_data; auto using is_bytes_slice. { apply slice_length. lia. }
      rewrite <- app_assoc, firstn_slice_app by lia. apply IH; auto. lia.
    + assert (Hn : (n = 2 \/ n = 4 \/ n = 8)%nat) by (rewrite !orb_true_iff, !Nat.eqb_eq in Ha; tauto).
      apply Z.geb_le in O1.
      destruct (lookup_refers pre ds blk b n q Hpre Hblk Lb Hds Hq Hn ltac:(lia) O1) as (p & R & S & G).
      apply (args_index _ n _ p); auto. rewrite S, <- app_assoc, firstn_slice_app by lia. apply IH; auto. lia.
Qed.

Lemma choose_ok k : forall i ds blk, (i + k = 25)%nat -> acts_ok ds blk 0 (row_acts (choose k i ds blk)) = true /\ (choose k i ds blk <= 25)%nat.
Proof.
  induction k; intros i ds blk Hi; cbn [choose].
  - replace i with 25%nat by lia. split; [reflexivity|lia].
  - destruct (acts_ok ds blk 0 (row_acts i)) eqn:A; [split; [auto|lia]|]. apply IHk. lia.
Qed.

Lemma zero_block b : is_bytes b -> length b = 8%nat -> be_val b = 0 -> b = repeat 0 8.
Proof.
  intros Hb L E. apply be_val_inj; auto. apply is_bytes_repeat. unfold is_byte; lia.
Qed.

Lemma blk_stream sw pre ds b q bs x rest : is_bytes pre -> is_bytes b -> length b = 8%nat -> dicts_ok pre ds ->
  length pre = (8 * q)%nat -> stream sw (pre ++ b) bs x rest -> stream sw pre (blk_bits ds b ++ bs) x rest.
Proof.
  intros Hpre Hb Lb Hds Hq HS. unfold blk_bits. destruct (Z.eqb_spec (be_val b) 0) as [E|E].
  - apply st_zeros. now rewrite <- (zero_block b).
  - unfold tmpl_bits. destruct (choose_ok 25 0 ds b ltac:(lia)) as [A C]. set (i := choose 25 0 ds b) in *.
    destruct (row_template i ltac:(lia)) as (T & S & L).
    rewrite <- app_assoc. eapply st_template; [|exact T| |exact HS].
    + pose proof (row_op_range i ltac:(lia)). lia.
    + pose proof (acts_args pre ds b q Hpre Hb Lb Hds Hq (row_acts i) 0 bs S ltac:(lia) A) as G.
      cbn [firstn] in G. rewrite app_nil_r in G. exact G.
Qed.

(** * Pending repeats *)
Lemma last8_app a b : length b = 8%nat -> last8 (a ++ b) = b.
Proof. intros. unfold last8. rewrite app_length. apply skipn_app_exact. lia. Qed.
Lemma last8_length a : (8 <= length a)%nat -> length (last8 a) = 8%nat.
Proof. intros. unfold last8. rewrite skipn_length. lia. Qed.
Lemma copies_S_r {A} n (l : list A) : copies (S n) l = copies n l ++ l.
Proof.
  induction n. { cbn. now rewrite app_nil_r. }
  change (copies (S (S n)) l) with (l ++ copies (S n) l). rewrite IHn at 1. rewrite app_assoc. reflexivity.
Qed.
Lemma copies_length {A} n (l : list A) : length (copies n l) = (n * length l)%nat.
Proof. induction n; auto. change (copies (S n) l) with (l ++ copies n l). rewrite app_length, IHn. lia. Qed.

Definition pend (rc : Z) (pre out : list Z) : Prop :=
  pre = out ++ copies (Z.to_nat rc) (last8 out) /\ (0 < rc -> (8 <= length out)%nat).
Definition last_ok (last : option (list Z)) (pre : list Z) : Prop :=
  match last with Some l => (8 <= length pre)%nat /\ l = last8 pre /\ is_bytes l | None => True end.

Lemma pend_last8 rc pre out : 0 <= rc -> pend rc pre out -> (8 <= length pre)%nat -> (8 <= length out)%nat /\ last8 pre = last8 out.
Proof.
  intros Hr [-> H] L. destruct (Z.eq_dec rc 0) as [->|NZ].
  - cbn [Z.to_nat copies] in *. change (copies 0 (last8 out)) with (@nil Z) in *. rewrite app_nil_r in *. auto.
  - specialize (H ltac:(lia)). split; auto.
    destruct (Z.to_nat rc) as [|m] eqn:E; [lia|]. rewrite copies_S_r, app_assoc. apply last8_app. now apply last8_length.
Qed.

Lemma ideal_loop_stream sw blocks : forall pre ds last rc out,
  is_bytes pre -> Forall (fun b => length b = 8%nat /\ is_bytes b) blocks ->
  (exists q, length pre = (8 * q)%nat) -> dicts_ok pre ds -> last_ok last pre -> 0 <= rc <= 63 ->
  pend rc pre out -> (0 < rc -> last <> None) ->
  let '(B, r) := ideal_loop ds (length pre) blocks last rc in
  0 <= r <= 63 /\
  exists out', pend r (pre ++ concat blocks) out' /\
    forall bs x rest, stream sw out' bs x rest -> stream sw out (B ++ bs) x rest.
Proof.
  induction blocks as [|b bs IH]; intros pre ds last rc out Hpre Hbl [q Hq] Hds Hlast Hrc Hpend Hnn.
  - cbn [ideal_loop concat]. split; auto. exists out. rewrite app_nil_r. auto.
  - inversion Hbl as [|? ? [Lb Bb] Hbl']; subst. cbn [ideal_loop concat].
    destruct (update_ok pre ds b q Hq Hds Lb) as (ds' & Hup & Hds').
    assert (ND : next_dicts ds b (length pre) = ds') by (unfold next_dicts; now rewrite Hup).
    rewrite ND.
    assert (LP : length (pre ++ b) = (length pre + 8)%nat) by (rewrite app_length; lia).
    assert (IH' : forall rc1 out1, 0 <= rc1 <= 63 -> pend rc1 (pre ++ b) out1 ->
      let '(B, r) := ideal_loop ds' (length pre + 8) bs (Some b) rc1 in
      0 <= r <= 63 /\
      exists out', pend r (pre ++ b ++ concat bs) out' /\
        forall bs x rest, stream sw out' bs x rest -> stream sw out1 (B ++ bs) x rest).
    { intros rc1 out1 R1 P1. rewrite <- LP, app_assoc. apply IH; auto.
      - apply is_bytes_app. auto.
      - exists (S q). lia.
      - cbn. split; [lia|]. split; auto. symmetry. now apply last8_app.
      - discriminate. }
    (* flushing the pending repeats *)
    assert (FL : forall rc', 1 <= rc' <= 64 -> (8 <= length out)%nat ->
      forall y x rest, stream sw (out ++ copies (Z.to_nat rc') (last8 out)) y x rest -> stream sw out (rep_bits rc' ++ y) x rest).
    { intros rc' R L y x rest HS. unfold rep_bits. rewrite <- app_assoc. apply st_repeat; [lia|auto|].
      replace (Z.to_nat (rc' - 1) + 1)%nat with (Z.to_nat rc') by lia. exact HS. }
    destruct (same last b) eqn:SM.
    + destruct last as [l|]; [|discriminate]. cbn [same] in SM. apply Z.eqb_eq in SM.
      cbn [last_ok] in Hlast. destruct Hlast as (L8 & -> & Bl).
      destruct (pend_last8 rc pre out ltac:(lia) Hpend L8) as [LO E8].
      assert (Eb : b = last8 out).
      { rewrite <- E8. apply be_val_inj; auto. rewrite last8_length; auto. }
      assert (PE : pre ++ b = out ++ copies (Z.to_nat (rc + 1)) (last8 out)).
      { replace (Z.to_nat (rc + 1)) with (S (Z.to_nat rc)) by lia. rewrite copies_S_r, app_assoc.
        destruct Hpend as [<- _]. now rewrite Eb. }
      destruct (Z.leb_spec (rc + 1) 63).
      * apply IH'; [lia|]. split; auto.
      * specialize (IH' 0 (pre ++ b) ltac:(lia)).
        destruct (ideal_loop ds' (length pre + 8) bs (Some b) 0) as [B r].
        destruct IH' as (R & out' & P' & S'). { split; [cbn; now rewrite app_nil_r|lia]. }
        split; auto. exists out'. split; auto. intros y x rest HS. rewrite <- app_assoc.
        apply FL; [lia|auto|]. rewrite <- PE. auto.
    + specialize (IH' 0 (pre ++ b) ltac:(lia)).
      destruct (ideal_loop ds' (length pre + 8) bs (Some b) 0) as [B r].
      destruct IH' as (R & out' & P' & S'). { split; [cbn; now rewrite app_nil_r|lia]. }
      split; auto. exists out'. split; auto. intros y x rest HS. rewrite <- !app_assoc.
      assert (HB : stream sw pre (blk_bits ds b ++ B ++ y) x rest) by (eapply blk_stream; eauto).
      unfold rep_bits_opt. destruct (Z.eqb_spec rc 0) as [->|NZ].
      * cbn [app]. destruct Hpend as [PE _]. cbn in PE. rewrite app_nil_r in PE. now subst.
      * destruct Hpend as [PE PL]. apply FL; [lia|apply PL; lia|]. now rewrite <- PE.
Qed.

(** * Packing bits into bytes *)
Definition pack (l : list bool) : list Z := map (fun k => val (slice (8 * k) 8 l)) (seq 0 (length l / 8)).
Lemma pack_bytes l : is_bytes (pack l).
Proof.
  unfold pack, is_bytes. apply Forall_forall. intros v Hv. apply in_map_iff in Hv. destruct Hv as (k & <- & Hk).
  apply in_seq in Hk. pose proof (Nat.div_mod (length l) 8 ltac:(lia)).
  pose proof (val_bound (slice (8 * k) 8 l)) as V. rewrite slice_length in V by lia. unfold is_byte. exact V.
Qed.
Lemma pack_length l : length (pack l) = (length l / 8)%nat.
Proof. unfold pack. now rewrite map_length, seq_length. Qed.
Lemma pack_bits l : (length l mod 8 = 0)%nat -> bytes_bits (pack l) = l.
Proof.
  intros HM. pose proof (Nat.div_mod (length l) 8 ltac:(lia)) as DM.
  assert (G : forall n s, (8 * (s + n) <= length l)%nat ->
     bytes_bits (map (fun k => val (slice (8 * k) 8 l)) (seq s n)) = slice (8 * s) (8 * n) l).
  { induction n; intros s Hs; cbn [seq map]. { reflexivity. }
    rewrite bytes_bits_cons, IHn by lia. replace (8 * S n)%nat with (8 + 8 * n)%nat by lia. rewrite slice_plus. f_equal.
    - rewrite <- (slice_length (8 * s) 8 l) at 1 by lia. apply bits_of_val.
    - f_equal. lia. }
  unfold pack. rewrite G by lia. unfold slice. cbn [Nat.mul skipn]. apply firstn_all2. lia.
Qed.

Definition ideal_out (x : list Z) : list Z := pack (pad (ideal_bits x)).
Lemma pad_length E : lenZ (pad E) = 8 * padded_size E.
Proof. unfold pad. rewrite lenZ_app. unfold lenZ at 2. rewrite repeat_length. pose proof (padded_ge E). lia. Qed.
Lemma ideal_out_length x : lenZ (ideal_out x) = padded_size (ideal_bits x).
Proof.
  unfold ideal_out, lenZ. rewrite pack_length. pose proof (pad_length (ideal_bits x)) as P. unfold lenZ in P.
  rewrite Nat2Z.inj_div, P. change (Z.of_nat 8) with 8. rewrite Z.mul_comm, Z.div_mul; lia.
Qed.
Lemma ideal_out_bits x : bytes_bits (ideal_out x) = pad (ideal_bits x).
Proof.
  apply pack_bits. pose proof (pad_length (ideal_bits x)) as P. unfold lenZ in P.
  apply Nat2Z.inj. rewrite Nat2Z.inj_mod, P. change (Z.of_nat 8) with 8. rewrite Z.mul_comm, Z.mod_mul; lia.
Qed.
Lemma ideal_out_bytes x : is_bytes (ideal_out x). Proof. apply pack_bytes. Qed.

Lemma blocks_bytes x : is_bytes x -> Forall (fun b => length b = 8%nat /\ is_bytes b) (blocks_of x).
Proof.
  intros Hx. pose proof (blocks_len x) as BL. apply Forall_forall. intros b Hb. rewrite Forall_forall in BL.
  split; auto. unfold blocks_of in Hb. apply in_map_iff in Hb. destruct Hb as (k & <- & _). now apply is_bytes_slice.
Qed.

Theorem ideal_stream sw x rest : is_bytes x -> (sw = true \/ (length x mod 8 = 0)%nat) ->
  stream sw [] (ideal_bits x ++ rest) x (bits_of 32 (crc32 x) ++ rest).
Proof.
  intros Hx Hsw. unfold ideal_bits.
  assert (P0 : pend 0 [] []) by (split; [reflexivity|lia]).
  assert (N0 : 0 < 0 -> @None (list Z) <> None) by lia.
  pose proof (ideal_loop_stream sw (blocks_of x) [] init_dicts None 0 [] (Forall_nil _) (blocks_bytes x Hx)
     (ex_intro _ 0%nat eq_refl) dicts_ok_init Logic.I ltac:(lia) P0 N0) as L.
  change (length (@nil Z)) with 0%nat in L.
  destruct (ideal_loop init_dicts 0 (blocks_of x) None 0) as [B r].
  destruct L as (R & out' & [P PL] & S). cbn [app] in P. rewrite <- !app_assoc. apply S.
  assert (T : stream sw (concat (blocks_of x)) (short_bits (tail_of x) ++ bits_of 5 30 ++ bits_of 32 (crc32 x) ++ rest) x
      (bits_of 32 (crc32 x) ++ rest)).
  { pose proof (tail_len x) as TL. pose proof (Nat.mod_upper_bound (length x) 8 ltac:(lia)).
    unfold short_bits. destruct (Nat.eqb_spec (length (tail_of x)) 0) as [E0|E0].
    - apply length_zero_iff_nil in E0. cbn [app].
      replace (concat (blocks_of x)) with x at 1. apply st_end.
      rewrite (blocks_tail x) at 1. rewrite E0. apply app_nil_r.
    - rewrite <- !app_assoc. apply st_short.
      + destruct Hsw; auto. lia.
      + lia.
      + unfold tail_of. now apply is_bytes_skipn.
      + rewrite <- (blocks_tail x). apply st_end. }
  unfold rep_bits_opt. destruct (Z.eqb_spec r 0) as [->|NZ].
  - cbn [app]. cbn in P. rewrite app_nil_r in P. now rewrite <- P.
  - unfold rep_bits. rewrite <- app_assoc. apply st_repeat; [lia|apply PL; lia|].
    replace (Z.to_nat (r - 1) + 1)%nat with (Z.to_nat r) by lia. now rewrite <- P.
Qed.

Theorem ideal_out_valid sw x : is_bytes x -> (sw = true \/ (length x mod 8 = 0)%nat) -> valid_842 sw (ideal_out x) x.
Proof.
  intros Hx Hsw. unfold valid_842. rewrite ideal_out_bits. unfold pad. eexists. now apply ideal_stream.
Qed.

(** * sw842_compress in terms of the ideal output *)
Theorem sw842_compress_out e addr inp out olen :
  is_bytes inp -> is_bytes out -> 0 <= olen <= lenZ out ->
  let z := ideal_out inp in
  (lenZ z <= olen /\ lenZ z <= UINT_MAX /\
     exists m, sw842_compress e addr inp out olen = Done (0, lenZ z, m) /\
       firstn (length z) m = z /\ mem_ok olen out m) \/
  ((olen < lenZ z \/ UINT_MAX < lenZ z) /\
     exists m, sw842_compress e addr inp out olen = Done (- ENOSPC, 0, m) /\ mem_ok olen out m).
Proof.
  intros Hinp Hout Hcap z. destruct (sw842_compress_ideal e addr inp out olen Hinp Hout Hcap) as [HF HN].
  rewrite <- ideal_out_length in HF, HN. fold z in HF, HN.
  destruct (Z_le_gt_dec (lenZ z) olen); [destruct (Z_le_gt_dec (lenZ z) UINT_MAX)|].
  - left. split; auto. split; auto. destruct HF as (m & E & B & M); auto. exists m. split; auto. split; auto.
    unfold lenZ in B. rewrite Nat2Z.id in B. apply bytes_bits_inj.
    + apply is_bytes_firstn. apply M.
    + apply ideal_out_bytes.
    + now rewrite B, <- ideal_out_bits.
  - right. split; [lia|]. apply HN. lia.
  - right. split; [lia|]. apply HN. lia.
Qed.
