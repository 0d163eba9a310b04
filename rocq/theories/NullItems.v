(** Well-formed chunks are restored whichever of the arrays are given. *)
From Coq Require Import ZArith List Bool Lia Permutation.
From Verif Require Import SpecBits SpecCrc Spec842 CBase BitsLemmas CrcProofs
  SerialCompModel SerialDecompModel SerialIdeal SerialValid PureDecoder SerialDecomp SerialFacts
  OptCompModel OptDecompModel OptWriter OptDecomp OclModel OclPure OclProofs SpecOcl OclItems OclProps OclExt InplaceModel SpecInplace InplaceProofs InplaceItems SpecNull NullProofs.
Import ListNotations.
Open Scope Z_scope.

(** * One chunk *)
Definition finish (m : cl_mem) (c : Z) (out : list Z) (n : Z) : outcome cl_mem :=
  ol <- opt_set (m_olen m) c n ;; rv <- opt_set (m_ret m) c 0 ;; Done (mkM out ol rv).

Lemma nitem_core e m inb c ip op n il x olen : is_bytes inb -> is_bytes (m_out m) -> 0 <= ip -> 0 <= op -> 0 <= n -> n mod 8 = 0 ->
  denotes_842 (bytes_at inb ip n) x -> op + lenZ x <= lenZ (m_out m) -> lenZ x < 2 ^ 63 ->
  (il = n /\ ip + n <= lenZ inb \/ n + 48 <= il /\ ip + n + 48 <= lenZ inb) ->
  opt_get (m_olen m) c SIZE_MAX = Done olen -> lenZ x <= olen ->
  is_bytes x /\ item_core e m inb c ip il op = finish m c (put (m_out m) (Z.to_nat op) x) (lenZ x).
Proof.
  intros Hi Ho I0 O0 N0 N8 DN HF H63 HN EO HX. unfold item_core. rewrite EO, bind_done.
  set (inp := skipn (Z.to_nat ip) inb) in *. set (out := skipn (Z.to_nat op) (m_out m)) in *.
  assert (X0 : 0 <= lenZ x) by (unfold lenZ; lia).
  assert (LI : lenZ inp = lenZ inb - ip) by (unfold inp, lenZ in *; rewrite skipn_length; lia).
  assert (LO : lenZ out = lenZ (m_out m) - op) by (unfold out, lenZ in *; rewrite skipn_length; lia).
  assert (BI : is_bytes inp) by now apply is_bytes_skipn. assert (BO : is_bytes out) by now apply is_bytes_skipn.
  split. { apply (core_good e inp n out (lenZ x)); auto; lia. }
  assert (E : decompress_core e inp il out (lenZ x) = Done (0, lenZ x, x ++ skipn (length x) out)).
  { destruct HN as [[-> HN]|[HN1 HN2]].
    - apply core_good; auto; lia.
    - apply core_long with (il := n); auto; lia. }
  rewrite (core_room _ _ _ _ _ olen _ _ E HX), bind_done. unfold finish, put, out. rewrite skipn_skipn. reflexivity.
Qed.

Section Item.
Variable e : endian.
Variable a : cl_args.
Variable m0 : cl_mem.
Hypothesis Hly : nlayout_ok a m0.

Lemma nwork_item m g c x olen : 0 <= g < a_num a -> opt_get (a_map a) g g = Done c -> 0 <= c < a_num a -> is_bytes (m_out m) ->
  out_pos a c + a_size a <= lenZ (m_out m) -> chunk_holds e a m0 c x -> opt_get (m_olen m) c SIZE_MAX = Done olen -> room a m0 c <= olen -> room a m0 c <= a_size a ->
  lenZ x <= a_size a /\ is_bytes x /\ work_item e a g m = finish m c (put (m_out m) (Z.to_nat (out_pos a c)) x) (lenZ x).
Proof.
  intros Hg Hm Hc Hb Hf HH EO RO RS. destruct Hly as [N1 N2 N3 N4 N5 N6 N7 N8 N9 N10 N11].
  unfold work_item. destruct (Z.geb_spec g (a_num a)); [lia|]. rewrite Hm, bind_done. cbv zeta. rewrite !words_addr by tauto.
  fold (out_pos a c). fold (in_pos a c).
  assert (I0 : 0 <= in_pos a c) by (unfold in_pos; nia). assert (O0 : 0 <= out_pos a c) by (unfold out_pos; nia).
  assert (EI : opt_get (a_ilen a) c SIZE_MAX = Done (match a_ilen a with Some _ => elem (a_ilen a) c | None => SIZE_MAX end)).
  { destruct (a_ilen a) as [l|]; [|reflexivity]. specialize (N8 l eq_refl). rewrite opt_get_some by lia. reflexivity. }
  rewrite EI, bind_done. clear EI. unfold chunk_holds in HH. destruct (a_format a).
  - destruct HH as (n & P0 & P8 & DN & LX & HN). split; [lia|]. apply nitem_core with (n := n) (olen := olen); try tauto; try lia.
    destruct (a_ilen a); [left; destruct HN; subst; auto|right]. unfold SIZE_MAX. lia.
  - destruct HH as (S16 & ZF & HH). cbv zeta in HH. rewrite load_bytes_ok by lia. rewrite bind_done.
    set (ch := bytes_at (a_in a) (in_pos a c) (a_size a)) in *.
    assert (LC : lenZ ch = a_size a) by (apply bytes_at_len; lia).
    change (slice (Z.to_nat (in_pos a c)) (Z.to_nat 16) (a_in a)) with (slice (Z.to_nat (in_pos a c)) 16 (a_in a)).
    rewrite <- (firstn_slice (a_in a) (Z.to_nat (in_pos a c)) (Z.to_nat (a_size a)) 16) by lia.
    change (slice (Z.to_nat (in_pos a c)) (Z.to_nat (a_size a)) (a_in a)) with ch.
    destruct HH as [[NM ->]|(z & PK & Z8 & DN & LX)].
    + split; [lia|]. destruct (list_eqb (firstn 16 ch) MARKER) eqn:LE; [apply list_eqb_eq in LE; contradiction|]. cbn [negb].
      rewrite (div8 (a_size a)) by tauto. rewrite load_bytes_ok by lia. rewrite bind_done.
      change (slice (Z.to_nat (in_pos a c)) (Z.to_nat (a_size a)) (a_in a)) with ch.
      split; [now apply is_bytes_slice|]. rewrite store_bytes_ok by lia. rewrite bind_done. unfold item_done, finish. rewrite LC. reflexivity.
    + split; [lia|]. destruct (packed_facts e (a_size a) ch z PK ltac:(lia)) as (MK & NV & BZ & LZ & _).
      rewrite MK. replace (list_eqb MARKER MARKER) with true by reflexivity. cbn [negb].
      rewrite load64_ok by lia. rewrite bind_done.
      assert (ZP : 0 < lenZ z). { destruct DN as (rest & S & _). destruct z; [now apply stream_nonempty in S|]. rewrite lenZ_cons. unfold lenZ. lia. }
      assert (N64 : slice (Z.to_nat (in_pos a c + 16)) 8 (a_in a) = slice 16 8 ch).
      { unfold ch, bytes_at. rewrite slice_slice by lia. f_equal. lia. }
      rewrite N64, NV. destruct (Z.eqb_spec (lenZ z) 0); [lia|].
      unfold u64. rewrite Z.mod_small by lia. rewrite div8.
      2: { rewrite Zminus_mod, Z8. replace (a_size a mod 8) with 0 by lia. reflexivity. }
      apply nitem_core with (n := lenZ z) (olen := olen); try tauto; try lia.
      replace (bytes_at (a_in a) (in_pos a c + (a_size a - lenZ z)) (lenZ z)) with z; auto.
      rewrite <- BZ at 1. unfold ch, bytes_at. rewrite slice_slice by lia. f_equal. lia.
Qed.
End Item.

(** * All work items *)
Definition oarr (num : Z) (D : Z -> bool) (v : Z -> Z) (o0 o : option (list Z)) : Prop :=
  match o0, o with
  | None, None => True
  | Some L0, Some L => lenZ L = num /\ forall c, 0 <= c < num -> nth (Z.to_nat c) L 0 = if D c then v c else nth (Z.to_nat c) L0 0
  | _, _ => False
  end.
Lemma oarr_set num D v o0 o c : oarr num D v o0 o -> 0 <= c < num -> exists o', opt_set o c (v c) = Done o' /\ oarr num (add D c) v o0 o'.
Proof.
  intros H Hc. destruct o0 as [L0|], o as [L|]; cbn [oarr] in H; try destruct H as []; [|exists None; split; [reflexivity|exact Logic.I]].
  rewrite opt_set_some by lia. eexists. split; [reflexivity|]. cbn [oarr]. split. { unfold lenZ in *. rewrite put_length; [lia|cbn [length]; lia]. }
  intros y Hy. rewrite put_nth by (cbn [length]; unfold lenZ in *; lia). unfold add. cbn [length]. destruct (Z.eqb_spec y c) as [->|N].
  - rewrite orb_true_r. destruct (Nat.leb_spec (Z.to_nat c) (Z.to_nat c)); [|lia]. destruct (Nat.ltb_spec (Z.to_nat c) (Z.to_nat c + 1)); [|lia].
    rewrite Nat.sub_diag. reflexivity.
  - rewrite orb_false_r, <- H0 by auto. destruct (Nat.leb_spec (Z.to_nat c) (Z.to_nat y)); auto. destruct (Nat.ltb_spec (Z.to_nat y) (Z.to_nat c + 1)); auto. lia.
Qed.

Section Run.
Variable e : endian.
Variable a : cl_args.
Variable m0 : cl_mem.
Variable x : Z -> list Z.
Hypothesis Hly : nlayout_ok a m0.
Hypothesis Hx : forall c, 0 <= c < a_num a -> chunk_holds e a m0 c (x c).

(** The same call with all arrays: for the facts about the shuffle map. *)
Definition full : cl_mem := mkM (m_out m0 ++ [0; 0]) (Some (repeat 0 (Z.to_nat (a_num a)))) (Some (repeat 0 (Z.to_nat (a_num a)))).
Lemma full_layout : layout_ok 2 a full.
Proof.
  destruct Hly as [N1 N2 N3 N4 N5 N6 N7 N8 N9 N10 N11]. split; cbn [full m_out m_olen m_ret]; auto; try tauto.
  - rewrite is_bytes_app, lenZ_app. split; [split; [tauto|]|change (lenZ [0; 0]) with 2; lia]. repeat constructor; lia.
  - eexists. split; [reflexivity|]. unfold lenZ. rewrite repeat_length. split; [lia|]. apply Forall_forall. intros y Hy. apply repeat_spec in Hy. lia.
  - eexists. split; [reflexivity|]. unfold lenZ. rewrite repeat_length. lia.
Qed.
Lemma room_le c : 0 <= c < a_num a -> room a m0 c <= a_size a.
Proof.
  intros Hc. unfold room, elem. destruct (m_olen m0) as [l|] eqn:E; [|lia]. destruct (nl_olen _ _ Hly l E) as [L F].
  rewrite Forall_forall in F. apply F. apply nth_In. unfold lenZ in L. lia.
Qed.

Definition in_data (p : nat) (c : Z) : Prop := out_pos a c <= Z.of_nat p < out_pos a c + lenZ (x c).
Record NInv (D : Z -> bool) (m : cl_mem) : Prop := {
  ni_L : oarr (a_num a) D (fun c => lenZ (x c)) (m_olen m0) (m_olen m);
  ni_R : oarr (a_num a) D (fun _ => 0) (m_ret m0) (m_ret m);
  ni_B : is_bytes (m_out m);
  ni_len : length (m_out m) = length (m_out m0);
  ni_out : forall p, (forall c, 0 <= c < a_num a -> D c = true -> ~ in_data p c) -> nth p (m_out m) 0 = nth p (m_out m0) 0;
  ni_done : forall c p, 0 <= c < a_num a -> D c = true -> in_data p c -> nth p (m_out m) 0 = nth (p - Z.to_nat (out_pos a c)) (x c) 0 }.
Lemma oarr_init num v o : (forall l, o = Some l -> lenZ l = num) -> oarr num (fun _ => false) v o o.
Proof. intros H. destruct o; cbn [oarr]; auto. Qed.
Lemma NInv_init : NInv (fun _ => false) m0.
Proof.
  constructor; try discriminate; auto.
  - apply oarr_init. intros l E. now destruct (nl_olen _ _ Hly l E).
  - apply oarr_init. apply (nl_ret _ _ Hly).
  - apply (nl_out _ _ Hly).
Qed.

Lemma nstep_ok D m g : NInv D m -> 0 <= g -> (g < a_num a -> D (cmap a g) = false) -> (forall c, 0 <= c < a_num a -> lenZ (x c) <= a_size a) ->
  exists m', work_item e a g m = Done m' /\ NInv (if g <? a_num a then add D (cmap a g) else D) m'.
Proof.
  intros HI Hg HD SZ. destruct (Z.ltb_spec g (a_num a)) as [G|G].
  2: { exists m. split; auto. unfold work_item. destruct (Z.geb_spec g (a_num a)); [reflexivity|lia]. }
  specialize (HD G). destruct (cmap_ok a full full_layout g ltac:(lia)) as [CM CR]. set (c := cmap a g) in *.
  destruct HI as [IL IR IB ILen IO IDn]. pose proof Hly as [N1 N2 N3 N4 N5 N6 N7 N8 N9 N10 N11].
  assert (FIT : forall y, 0 <= y < a_num a -> 0 <= out_pos a y /\ out_pos a y + a_size a <= lenZ (m_out m)).
  { intros y Hy. unfold lenZ. rewrite ILen. fold (lenZ (m_out m0)). unfold out_pos. nia. }
  destruct (FIT c CR) as [O0 OF].
  assert (exists olen, opt_get (m_olen m) c SIZE_MAX = Done olen /\ room a m0 c <= olen) as (olen & EO & RO).
  { pose proof (room_le c CR) as RL. unfold room in *. destruct (m_olen m0) as [L0|] eqn:E0, (m_olen m) as [L|]; cbn [oarr] in IL; try destruct IL as [].
    - rewrite opt_get_some by lia. eexists. split; [reflexivity|]. rewrite H0 by auto. rewrite HD. cbn [elem]. lia.
    - eexists. split; [reflexivity|]. unfold SIZE_MAX. lia. }
  destruct (nwork_item e a m0 Hly m g c (x c) olen ltac:(lia) CM CR IB OF (Hx c CR) EO RO (room_le c CR)) as (LX & BX & ->).
  unfold finish. destruct (oarr_set _ _ _ _ _ c IL CR) as (ol & -> & IL'). destruct (oarr_set _ _ _ _ _ c IR CR) as (rv & -> & IR').
  rewrite !bind_done. eexists. split; [reflexivity|].
  assert (PN : forall p, nth p (put (m_out m) (Z.to_nat (out_pos a c)) (x c)) 0 =
    if (Z.to_nat (out_pos a c) <=? p)%nat && (p <? Z.to_nat (out_pos a c) + length (x c))%nat then nth (p - Z.to_nat (out_pos a c)) (x c) 0 else nth p (m_out m) 0).
  { intros p. apply put_nth. unfold lenZ in *. lia. }
  constructor; cbn [m_out m_olen m_ret]; auto.
  - now apply put_bytes.
  - rewrite put_length; auto. unfold lenZ in *. lia.
  - intros p HP. rewrite PN. pose proof (HP c CR) as HC. unfold add at 1 in HC. rewrite Z.eqb_refl, orb_true_r in HC. specialize (HC eq_refl). unfold in_data, lenZ in HC.
    replace ((Z.to_nat (out_pos a c) <=? p)%nat && (p <? Z.to_nat (out_pos a c) + length (x c))%nat) with false.
    + apply IO. intros y Hy Dy. apply HP; auto. unfold add. now rewrite Dy.
    + destruct (Nat.leb_spec (Z.to_nat (out_pos a c)) p); auto. destruct (Nat.ltb_spec p (Z.to_nat (out_pos a c) + length (x c))); auto. lia.
  - intros y p Hy Dy IP. rewrite PN. unfold in_data, lenZ in IP. destruct (Z.eqb_spec y c) as [->|N].
    + destruct (Nat.leb_spec (Z.to_nat (out_pos a c)) p); [|lia]. destruct (Nat.ltb_spec p (Z.to_nat (out_pos a c) + length (x c))); [|lia]. reflexivity.
    + assert (Dy' : D y = true). { unfold add in Dy. destruct (Z.eqb_spec y c); [contradiction|]. now rewrite orb_false_r in Dy. }
      replace ((Z.to_nat (out_pos a c) <=? p)%nat && (p <? Z.to_nat (out_pos a c) + length (x c))%nat) with false; [now apply IDn|].
      destruct (Nat.leb_spec (Z.to_nat (out_pos a c)) p); auto. destruct (Nat.ltb_spec p (Z.to_nat (out_pos a c) + length (x c))); auto.
      exfalso. apply N. pose proof (SZ y Hy). unfold out_pos, lenZ in *. nia.
Qed.
Lemma holds_size c : 0 <= c < a_num a -> lenZ (x c) <= a_size a.
Proof.
  intros Hc. pose proof (Hx c Hc) as H. pose proof (room_le c Hc). pose proof Hly as [N1 N2 N3 N4 N5 N6 N7 N8 N9 N10 N11].
  unfold chunk_holds in H. destruct (a_format a).
  - destruct H as (n & _ & _ & _ & L & _). lia.
  - destruct H as (_ & F & [[_ ->]|(z & _ & _ & _ & L)]); [|lia]. rewrite bytes_at_len; [lia|unfold in_pos; nia|lia|lia].
Qed.
Lemma nrun_ok order : forall D m, NInv D m -> NoDup order -> (forall g, In g order -> 0 <= g /\ (g < a_num a -> D (cmap a g) = false)) ->
  exists m', run_items e a order m = Done m' /\ NInv (done_after a D order) m'.
Proof.
  induction order as [|g order IH]; intros D m HI ND HG; cbn [run_items done_after fold_left]; [eauto|].
  inversion ND as [|? ? NI ND']; subst. destruct (HG g (or_introl eq_refl)) as [G0 GD].
  destruct (nstep_ok D m g HI G0 GD holds_size) as (m1 & -> & I1). rewrite bind_done. apply IH; auto.
  intros h Hh. destruct (HG h (or_intror Hh)) as [H0 HD]. split; auto. intros HN. destruct (Z.ltb_spec g (a_num a)); auto.
  unfold add. rewrite HD by auto. destruct (Z.eqb_spec (cmap a h) (cmap a g)) as [E|]; auto. apply (cmap_inj a full full_layout) in E; try lia. subst. contradiction.
Qed.

Theorem well_formed order : schedule a order -> exists m', run_items e a order m0 = Done m' /\
  length (m_out m') = length (m_out m0) /\
  (forall c, 0 <= c < a_num a -> restored a m0 m' c (x c)) /\
  (forall p, outside a x p -> nth p (m_out m') 0 = nth p (m_out m0) 0).
Proof.
  intros P. unfold schedule in P. destruct (nrun_ok order (fun _ => false) m0 NInv_init) as (m' & E & I).
  - eapply Permutation_NoDup; [apply Permutation_sym; exact P|apply numbers_nodup].
  - intros g Hg. split; auto. eapply Permutation_in in Hg; [|exact P]. apply in_numbers in Hg. lia.
  - exists m'. split; auto. destruct I as [IL IR IB ILen IO IDn]. split; auto. split.
    + intros c Hc. assert (Dc : done_after a (fun _ => false) order c = true).
      { destruct (cmap_surj a full full_layout c Hc) as (g & Hg & <-). apply done_after_in; [|lia]. eapply Permutation_in; [apply Permutation_sym; exact P|]. apply in_numbers.
        pose proof (global_size_ge (a_num a) (nl_num _ _ Hly)). lia. }
      pose proof Hly as [N1 N2 N3 N4 N5 N6 N7 N8 N9 N10 N11]. pose proof (holds_size c Hc) as HS. pose proof (room_le c Hc).
      assert (O0 : 0 <= out_pos a c) by (unfold out_pos; nia).
      assert (OF : out_pos a c + a_size a <= lenZ (m_out m')). { unfold lenZ. rewrite ILen. fold (lenZ (m_out m0)). unfold out_pos. nia. }
      split; [|split].
      * apply (nth_ext _ _ 0 0). { unfold bytes_at. rewrite slice_length; unfold lenZ in *; lia. }
        intros i Hi. unfold bytes_at in Hi. rewrite slice_length in Hi by (unfold lenZ in *; lia).
        rewrite nth_bytes_at by (unfold lenZ in *; lia). rewrite (IDn c) by (auto; unfold in_data, lenZ in *; lia). f_equal. lia.
      * destruct (m_olen m0) as [L0|], (m_olen m') as [L|]; cbn [oarr] in IL; try destruct IL as []; auto. split; [eauto|]. cbn [elem]. rewrite H1 by auto. now rewrite Dc.
      * destruct (m_ret m0) as [L0|], (m_ret m') as [L|]; cbn [oarr] in IR; try destruct IR as []; auto. split; [eauto|]. cbn [elem]. rewrite H1 by auto. now rewrite Dc.
    + intros p HP. apply IO. intros c Hc _. exact (HP c Hc).
Qed.
End Run.
