(** The extent of C67: which inputs the branch-free optsw842_compress is defined on by the C++ standard. PropBranchFree.v
    refutes the property with one input; here it fails for every input that starts with a non-zero block, and holds for
    every input of zeros. *)
From Coq Require Import ZArith List Bool Lia.
From Verif Require Import SpecBits SpecCrc Spec842 SpecCalls SpecFinds CBase BitsLemmas CrcModel OpcodesTable SerialCompModel SerialWriter
  SerialDict SerialIdeal SerialComp SerialValid SerialFacts OptCompModel OptWriter OptDict GenLoop OptIdeal OptComp OptProps BranchFreeModel
  BranchFreeComp PropOpt PropBranchFree OptFinds.
Import ListNotations.
Open Scope Z_scope.

(** The first block is never found: nothing has been entered yet. *)
Lemma first_missed b : length b = 8%nat -> exists ix,
  ofind_index (set_hashes ostate_init (ohash (odata b))) (odata b) = Done (List.repeat false 7, ix).
Proof.
  intros Lb. destruct (ofind_ok [] ostate_init b odict_init Lb) as (v & ix & E & E' & _).
  pose proof (ofind_exact [] ostate_init [] (repeat 0 8) b exact_init Lb) as X. rewrite E' in X. cbn [fst] in X.
  exists ix. rewrite E, X. reflexivity.
Qed.

(** C67: every input whose first block is not zero makes the compressor shift a 64-bit value by 64, so that
    the call is undefined by the C++ standard, whatever the buffers and the capacity. *)
Theorem C67_non_zero_start_refuted : forall e iaddr oaddr inp out olen,
  is_bytes inp -> lenZ inp mod 8 = 0 -> is_bytes out -> 0 <= olen <= lenZ out -> iaddr mod 8 = 0 -> oaddr mod 8 = 0 ->
  Exists (fun v => v <> 0) (firstn 8 inp) ->
  optsw842_compress_bf (fun _ => Undef) e iaddr oaddr inp out olen = Undef.
Proof.
  intros e iaddr oaddr inp out olen Hi HM Ho Hc HA HO HX.
  assert (L8 : 8 <= lenZ inp).
  { pose proof (Z.div_mod (lenZ inp) 8 ltac:(lia)). pose proof (lenZ_nonneg inp). destruct inp; [inversion HX|].
    rewrite lenZ_cons in *. pose proof (lenZ_nonneg inp). lia. }
  assert (LI : (0 + 8 <= length inp)%nat) by (unfold lenZ in L8; lia).
  set (b := slice 0 8 inp). assert (Bb : is_bytes b) by now apply is_bytes_slice.
  assert (Lb : length b = 8%nat) by (apply slice_length; lia).
  assert (NZ : (native_val e b =? 0) = false).
  { rewrite native_val_0 by auto. apply Z.eqb_neq. intros B0.
    assert (b = List.repeat 0 8) as EB.
    { apply be_val_inj; auto. { repeat constructor; lia. } }
    unfold b, slice in EB. cbn [skipn] in EB. rewrite EB in HX. apply Exists_exists in HX. destruct HX as (v & Iv & Nv).
    apply repeat_spec in Iv. congruence. }
  unfold optsw842_compress_bf. rewrite HM, HA, HO. change (negb (0 =? 0)) with false. cbn [orb]. cbv iota.
  rewrite load64_ok by lia. rewrite bind_done. change (Z.to_nat 0) with 0%nat. fold b.
  destruct (Z.to_nat (lenZ inp / 8)) as [|q] eqn:Q.
  { exfalso. pose proof (Z.div_le_lower_bound (lenZ inp) 8 1 ltac:(lia) ltac:(lia)). lia. }
  cbn [bcomp_loop]. rewrite Z.gtb_ltb. destruct (Z.ltb_spec 7 (lenZ inp)); [|lia].
  rewrite load64_ok by lia. rewrite bind_done. change (Z.to_nat 0) with 0%nat. fold b.
  change 0 with (Z.of_nat 0) at 1. rewrite (bget_next_data_ok e inp 0 b Hi LI eq_refl), bind_done.
  assert (NL : (native_val e b =? u64 (Z.lnot (native_val e b))) = false) by (apply Z.eqb_neq; apply lnot_neq; auto).
  rewrite NL. cbn [andb]. change (negb (0 =? 0)) with false. cbv iota. rewrite NZ.
  unfold bprocess_next. destruct (first_missed b Lb) as (ix & ->). rewrite bind_done.
  change (get_template (template_keys (List.repeat false 7))) with (@Done Z 0). rewrite bind_done.
  unfold badd_template.
  destruct (stream_write_bits_ok e (olen / 8) out (stream_open out olen) [] 0 OP_BITS
    (bsw_open (olen / 8) olen out Ho Hc eq_refl) ltac:(unfold OP_BITS; lia) ltac:(unfold OP_BITS; lia)) as [(_ & s' & -> & _)|(F & _)].
  - reflexivity.
  - exfalso. pose proof (Z.div_pos olen 8 ltac:(lia) ltac:(lia)). unfold OP_BITS in F. rewrite lenZ_nil in F. lia.
Qed.
Print Assumptions C67_non_zero_start_refuted.
Example C67_non_zero_case : is_bytes bsample /\ lenZ bsample mod 8 = 0 /\ Exists (fun v => v <> 0) (firstn 8 bsample).
Proof. split; [unfold bsample; isb|]. split; [reflexivity|]. left. lia. Qed.

Lemma bind_undef {A B} (f : A -> outcome B) : bind Undef f = Undef.
Proof. reflexivity. Qed.
Lemma bind_nofuel {A B} (f : A -> outcome B) : bind NoFuel f = NoFuel.
Proof. reflexivity. Qed.
(** The loop over blocks of zeros makes no such shift. *)
Lemma zero_loop over over' e inp : Forall (eq 0) inp -> forall fuel s st pos ilen last rc,
  bcomp_loop over e fuel inp s st pos ilen last rc = bcomp_loop over' e fuel inp s st pos ilen last rc.
Proof.
  intros Hz. induction fuel as [|f IH]; intros s st pos ilen last rc; cbn [bcomp_loop]; [reflexivity|].
  destruct (ilen >? 7); [|reflexivity].
  destruct (load64 e inp pos) as [next| |] eqn:LD; [|rewrite !bind_undef; reflexivity|rewrite !bind_nofuel; reflexivity]. rewrite !bind_done.
  assert (N0 : next = 0).
  { unfold load64, load_bytes in LD.
    match type of LD with bind (if ?c then _ else _) _ = _ => destruct c end; [|discriminate].
    rewrite bind_done in LD. apply Done_inj in LD.
    assert (Z0 : Forall (eq 0) (slice (Z.to_nat pos) (Z.to_nat 8) inp)).
    { apply Forall_forall. intros v Iv. rewrite Forall_forall in Hz. apply Hz.
      unfold slice in Iv. rewrite <- (firstn_skipn (Z.to_nat pos) inp). apply in_or_app. right.
      rewrite <- (firstn_skipn (Z.to_nat 8) (skipn (Z.to_nat pos) inp)). apply in_or_app. now left. }
    rewrite <- LD.
    assert (BE : forall l, Forall (eq 0) l -> native_val e l = 0).
    { intros l Hl. assert (BB : is_bytes l) by (apply Forall_forall; intros v Iv; rewrite Forall_forall in Hl; rewrite <- (Hl v Iv); split; [apply Z.le_refl|reflexivity]).
      apply Z.eqb_eq. rewrite native_val_0 by auto. apply Z.eqb_eq. clear BB.
      unfold be_val. clear - Hl. induction l as [|x l IHl]; [reflexivity|]. apply Forall_cons_iff in Hl. destruct Hl as [<- HF].
      exact (IHl HF). }
    now apply BE. }
  subst next. change (0 =? 0) with true. cbv iota.
  destruct (bget_next_data e inp pos) as [[d x]| |]; [|rewrite !bind_undef; reflexivity|rewrite !bind_nofuel; reflexivity]. rewrite !bind_done.
  assert (R : forall s st rc, (st' <- oupdate_hashtables st d pos ;; bcomp_loop over e f inp s st' (pos + 8) (ilen - 8) 0 rc) =
    (st' <- oupdate_hashtables st d pos ;; bcomp_loop over' e f inp s st' (pos + 8) (ilen - 8) 0 rc)).
  { intros s1 st1 rc1. destruct (oupdate_hashtables st1 d pos); [|rewrite !bind_undef; reflexivity|rewrite !bind_nofuel; reflexivity]. rewrite !bind_done. apply IH. }
  assert (EM : forall s, ('(ok, s') <- oadd_zeros_template e s ;;
          if ok : bool then (st' <- oupdate_hashtables st d pos ;; bcomp_loop over e f inp s' st' (pos + 8) (ilen - 8) 0 0) else Done (false, s', 0)) =
     ('(ok, s') <- oadd_zeros_template e s ;;
          if ok : bool then (st' <- oupdate_hashtables st d pos ;; bcomp_loop over' e f inp s' st' (pos + 8) (ilen - 8) 0 0) else Done (false, s', 0))).
  { intros s1. destruct (oadd_zeros_template e s1) as [[[] s']| |]; [|rewrite ?bind_done; reflexivity|rewrite !bind_undef; reflexivity|rewrite !bind_nofuel; reflexivity]. rewrite !bind_done. apply R. }
  destruct (_ && _); [apply R|]. destruct (negb _); [|apply EM].
  destruct (oadd_repeat_template e s _) as [[[] s']| |]; [|rewrite ?bind_done; reflexivity|rewrite !bind_undef; reflexivity|rewrite !bind_nofuel; reflexivity]. rewrite !bind_done.
  destruct (0 =? last); [apply R|apply EM].
Qed.

(** C67, the proved part: on inputs of zeros the branch-free compressor does what the default one does, with no such shift:
    [over] is any outcome, undefined included. *)
Theorem C67_zeros_partial : forall over e iaddr oaddr inp out olen,
  Forall (eq 0) inp -> is_bytes out -> 0 <= olen <= lenZ out ->
  observed (optsw842_compress_bf over e iaddr oaddr inp out olen) = observed (optsw842_compress e iaddr oaddr inp out olen).
Proof.
  intros over e iaddr oaddr inp out olen Hz Ho Hc.
  assert (Hi : is_bytes inp) by (apply Forall_forall; intros v Iv; rewrite Forall_forall in Hz; rewrite <- (Hz v Iv); split; [apply Z.le_refl|reflexivity]).
  rewrite <- (C66_branch_free_compress_same (fun _ => Done 0) e iaddr oaddr inp out olen eq_refl Hi Ho Hc).
  unfold optsw842_compress_bf. destruct (load64 e inp 0); [|rewrite !bind_undef; reflexivity|rewrite !bind_nofuel; reflexivity]. rewrite !bind_done.
  rewrite (zero_loop over (fun _ => Done 0) e inp Hz). reflexivity.
Qed.
Print Assumptions C67_zeros_partial.
Example C67_zeros_case : observed (optsw842_compress_bf (fun _ => Undef) LE 0 0 (List.repeat 0 24) (obuf 16) 16) =
  observed (optsw842_compress LE 0 0 (List.repeat 0 24) (obuf 16) 16) /\
  exists n z, observed (optsw842_compress LE 0 0 (List.repeat 0 24) (obuf 16) 16) = Done (0, n, z).
Proof. split; [vm_compute; reflexivity|]. do 2 eexists. vm_compute. reflexivity. Qed.
