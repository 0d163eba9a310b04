(** The optimized codec with other settings of its switches. *)
From Coq Require Import ZArith List Bool Lia.
From Verif Require Import SpecBits SpecCrc Spec842 SpecCalls SpecOptConfig CBase BitsLemmas CrcModel CrcProofs OpcodesTable
  SerialCompModel SerialDecompModel SerialWriter SerialDict SerialIdeal SerialComp SerialValid PureDecoder SerialReader SerialDecomp SerialFacts SerialProps
  OptCompModel OptDecompModel OptWriter OptDict GenLoop OptIdeal OptComp OptDecomp OptProps OptConfigModel.
Import ListNotations.
Open Scope Z_scope.

(** * The settings of the repository *)
Lemma compress_default e iaddr oaddr inp out olen : compress_with e true true iaddr oaddr inp out olen = optsw842_compress e iaddr oaddr inp out olen.
Proof. reflexivity. Qed.
Lemma loop_default e inp olen f p : loop_with e true f inp olen p = odecomp_loop e f inp olen p.
Proof. reflexivity. Qed.
Lemma decompress_default e iaddr oaddr inp out olen : decompress_with e true true iaddr oaddr inp out olen = optsw842_decompress e iaddr oaddr inp out olen.
Proof. reflexivity. Qed.

(** * Without the checks *)
Section Off.
Variable e : endian.
Variable inp : list Z.

Lemma raise_err p : q_err (raise_einval p) <> 0.
Proof. unfold raise_einval. destruct (Z.eqb_spec (q_err p) 0); auto. unfold EINVAL. cbn. lia. Qed.
Lemma read_word_off p v p' : read_word e inp p = Done (v, p') -> q_err p' = 0 -> read_word_with e false inp p = Done (v, p') /\ q_err p = 0 /\ q_mem p' = q_mem p /\ q_pos p' = q_pos p.
Proof.
  unfold read_word, read_word_with. cbn [andb]. destruct ((q_in p + 1) * 8 >? lenZ inp).
  - intros H E. injection H as <- <-. now apply raise_err in E.
  - destruct (load64 e inp (8 * q_in p)); cbn [bind]; try discriminate. intros H E. injection H as <- <-. auto.
Qed.
Lemma read_bits_off p n v p' : read_bits e inp p n = Done (v, p') -> q_err p' = 0 -> read_bits_with e false inp p n = Done (v, p') /\ q_err p = 0 /\ q_mem p' = q_mem p /\ q_pos p' = q_pos p.
Proof.
  unfold read_bits, read_bits_with. destruct (shr64 (q_buffer p) (64 - n)) as [value| |]; cbn [bind]; try discriminate.
  destruct (q_bits p <? n).
  - destruct (read_word e inp p) as [[w p1]| |] eqn:E; cbn [bind]; try discriminate.
    intros H E0. assert (E1 : q_err p1 = 0).
    { destruct (shr64 w _); cbn [bind] in H; try discriminate. destruct (shl64 w _); cbn [bind] in H; try discriminate. destruct (shl64 _ 1); cbn [bind] in H; try discriminate.
      injection H as <- <-. exact E0. }
    destruct (read_word_off _ _ _ E E1) as (-> & X1 & X2 & X3). cbn [bind]. split; [exact H|]. split; [exact X1|].
    destruct (shr64 w _); cbn [bind] in H; try discriminate. destruct (shl64 w _); cbn [bind] in H; try discriminate. destruct (shl64 _ 1); cbn [bind] in H; try discriminate.
    injection H as <- <-. auto.
  - destruct (shl64 (q_buffer p) n); cbn [bind]; try discriminate. intros H E0. injection H as <- <-. auto.
Qed.
Lemma odo_index_off p size index fsize p' : odo_index p size index fsize = Done p' -> q_err p' = 0 -> odo_index_with false p size index fsize = Done p' /\ q_err p = 0.
Proof.
  unfold odo_index, odo_index_with. destruct (oindex_offset (q_pos p) size fsize index) as [offset total]. cbn [andb]. destruct (u64 (offset + size) >? total).
  - intros H E. injection H as <-. now apply raise_err in E.
  - destruct (load_bytes (q_mem p) offset size); cbn [bind]; try discriminate. destruct (store_bytes _ _ _); cbn [bind]; try discriminate. intros H E. injection H as <-. auto.
Qed.
Lemma run_stmt_off p rep s p' : run_stmt e p rep s = Done p' -> q_err p' = 0 -> run_stmt_with e false p rep s = Done p' /\ q_err p = 0.
Proof.
  destruct s; cbn [run_stmt run_stmt_with]; try apply odo_index_off.
  unfold odo_data. intros H E. split; [exact H|]. destruct (if n =? 2 then _ else _); cbn [bind] in H; try discriminate. now injection H as <-.
Qed.
Lemma run_stmts_off l : forall p rep p', run_stmts e p rep l = Done p' -> q_err p' = 0 -> run_stmts_with e false p rep l = Done p' /\ q_err p = 0.
Proof.
  induction l as [|s l IH]; intros p rep p'; cbn [run_stmts run_stmts_with]; [intros H E; injection H as <-; auto|].
  destruct (run_stmt e p rep s) as [p1| |] eqn:E1; cbn [bind]; try discriminate. intros H E. destruct (IH _ _ _ H E) as [H2 E2].
  destruct (run_stmt_off _ _ _ _ E1 E2) as [-> E3]. cbn [bind]. auto.
Qed.
Lemma step_off olen olen' p fin p' : odecomp_step e inp olen p = Done (inr fin, p') -> step_with e false inp olen' p = Done (inr fin, p') /\ q_err p' = 0.
Proof.
  unfold odecomp_step, step_with. destruct (read_bits e inp p OP_BITS) as [[op p1]| |] eqn:RB; cbn [bind]; try discriminate.
  cbn [andb]. destruct (Z.eqb_spec (q_err p1) 0) as [E1|E1]; cbn [negb]; try discriminate. destruct (read_bits_off _ _ _ _ RB E1) as (-> & _). cbn [bind].
  destruct (((op <? OPS_MAX) || (op =? OP_ZEROS)) && (q_pos p1 + 8 >? olen)); try discriminate.
  assert (FIN : forall (o : outcome ((Z + bool) * pstate)) (o' : outcome ((Z + bool) * pstate)),
    (forall fin p2, o = Done (inr fin, p2) -> q_err p2 = 0 -> o' = Done (inr fin, p2)) ->
    ('(r, p2) <- o ;; match r with inl ret => Done (inl ret, p2) | inr fin => if negb (q_err p2 =? 0) then Done (inl (q_err p2), p2) else Done (inr fin, p2) end) = Done (inr fin, p') ->
    ('(r, p2) <- o' ;; match r with inl ret => Done (inl ret, p2) | inr fin => Done (inr fin, p2) end) = Done (inr fin, p') /\ q_err p' = 0).
  { intros o o' H. destruct o as [[[ret|fi] p2]| |]; cbn [bind]; try discriminate. destruct (Z.eqb_spec (q_err p2) 0) as [E2|E2]; cbn [negb]; try discriminate.
    intros X. injection X as <- <-. rewrite (H fi p2 eq_refl E2). cbn [bind]. auto. }
  apply FIN. clear FIN. intros fi p2. destruct (opt_case op) as [[n l]|].
  - destruct (read_bits e inp p1 n) as [[rep q]| |] eqn:R2; cbn [bind]; try discriminate. destruct (run_stmts e q rep l) as [q'| |] eqn:RS; cbn [bind]; try discriminate.
    intros X E2. injection X as <- <-. destruct (run_stmts_off _ _ _ _ RS E2) as [H3 E3]. destruct (read_bits_off _ _ _ _ R2 E3) as (-> & _). cbn [bind]. rewrite H3. reflexivity.
  - destruct (op =? OP_REPEAT); [|auto].
    destruct (read_bits e inp p1 REPEAT_BITS) as [[rep q]| |] eqn:R2; cbn [bind]; try discriminate.
    destruct (Z.eqb_spec (q_err q) 0) as [E2|E2]; cbn [negb]; try discriminate. destruct (read_bits_off _ _ _ _ R2 E2) as (-> & _). cbn [bind].
    destruct (q_pos q =? 0); try discriminate. destruct (q_pos q + (rep + 1) * 8 >? olen); try discriminate. auto.
Qed.
Lemma loop_off olen olen' f : forall p p', odecomp_loop e f inp olen p = Done (0, p') -> loop_with e false f inp olen' p = Done (0, p') \/ exists q, odecomp_step e inp olen q = Done (inl 0, p').
Proof.
  induction f as [|f IH]; intros p p'; cbn [odecomp_loop loop_with]; [discriminate|].
  destruct (odecomp_step e inp olen p) as [[[r|[|]] q]| |] eqn:ST; cbn [bind]; try discriminate.
  - intros X. injection X as -> ->. eauto.
  - intros X. injection X as ->. destruct (step_off _ olen' _ _ _ ST) as [-> _]. cbn [bind]. auto.
  - destruct (step_off _ olen' _ _ _ ST) as [-> _]. cbn [bind]. apply IH.
Qed.
(** The loop is never left with 0 by a return. *)
Lemma step_code olen p c p' : odecomp_step e inp olen p = Done (inl c, p') -> c <> 0.
Proof.
  unfold odecomp_step. destruct (read_bits e inp p OP_BITS) as [[op p1]| |]; cbn [bind]; try discriminate.
  destruct (Z.eqb_spec (q_err p1) 0) as [E1|E1]; cbn [negb]; [|intros X; now injection X as <- <-].
  destruct (((op <? OPS_MAX) || (op =? OP_ZEROS)) && (q_pos p1 + 8 >? olen)); [intros X; injection X as <- <-; discriminate|].
  assert (FIN : forall (o : outcome ((Z + bool) * pstate)), (forall c p2, o = Done (inl c, p2) -> c <> 0) ->
    ('(r, p2) <- o ;; match r with inl ret => Done (inl ret, p2) | inr fin => if negb (q_err p2 =? 0) then Done (inl (q_err p2), p2) else Done (inr fin, p2) end) = Done (inl c, p') -> c <> 0).
  { intros o H. destruct o as [[[ret|fi] p2]| |]; cbn [bind]; try discriminate. { intros X. injection X as -> _. eapply H; eauto. }
    destruct (Z.eqb_spec (q_err p2) 0) as [E2|E2]; cbn [negb]; try discriminate. intros X. now injection X as <- _. }
  apply FIN. clear FIN. intros c' p2. destruct (opt_case op) as [[n l]|].
  - destruct (read_bits e inp p1 n) as [[rep q]| |]; cbn [bind]; try discriminate. destruct (run_stmts e q rep l); cbn [bind]; discriminate.
  - destruct (op =? OP_REPEAT).
    + destruct (read_bits e inp p1 REPEAT_BITS) as [[rep q]| |]; cbn [bind]; try discriminate.
      destruct (Z.eqb_spec (q_err q) 0) as [E2|E2]; cbn [negb]; [|intros X; now injection X as <- _].
      destruct (q_pos q =? 0); [intros X; injection X as <- _; discriminate|]. destruct (q_pos q + (rep + 1) * 8 >? olen); [intros X; injection X as <- _; discriminate|].
      destruct (orepeat_copy _ _); cbn [bind]; discriminate.
    + destruct (op =? OP_ZEROS); [destruct (store_bytes _ _ _); cbn [bind]; discriminate|]. destruct (op =? OP_END); [discriminate|]. intros X. injection X as <- _. discriminate.
Qed.
End Off.

(** What the checked decompressor accepts, the other decompresses to the same; it does not look at *olen. *)
Theorem unchecked_same e crc iaddr oaddr inp out olen olen' n m : iaddr mod 8 = 0 -> oaddr mod 8 = 0 ->
  decompress_with e true crc iaddr oaddr inp out olen = Done (0, n, m) -> decompress_with e false crc iaddr oaddr inp out olen' = Done (0, n, m).
Proof.
  intros HI HO. unfold decompress_with. rewrite HI, HO. change (negb (0 =? 0)) with false. cbn [orb]. cbv iota. rewrite loop_default.
  destruct (odecomp_loop e (S (Z.to_nat (8 * lenZ inp))) inp olen (mkP 0 0 0 0 out 0)) as [[ret p]| |] eqn:L; cbn [bind]; try discriminate.
  destruct (Z.eqb_spec ret 0) as [->|NZ]; cbn [negb]. 2: { intros X. injection X as -> _ _. now destruct NZ. }
  destruct (loop_off e inp olen olen' _ _ _ L) as [->|[q Q]]. 2: { now apply step_code in Q. }
  cbn [bind]. change (negb (0 =? 0)) with false. cbv iota. destruct crc; [|auto].
  change (read_bits_with e true) with (read_bits e). destruct (read_bits e inp p CRC_BITS) as [[c p1]| |] eqn:RB; cbn [bind]; try discriminate.
  cbn [andb]. destruct (Z.eqb_spec (q_err p1) 0) as [E1|E1]; cbn [negb]. 2: { intros X. injection X as X _ _. contradiction. }
  destruct (read_bits_off _ _ _ _ _ _ RB E1) as (-> & _). cbn [bind]. auto.
Qed.
(** Without the CRC, what is accepted with it is accepted as well. *)
Theorem uncrc_same e eh iaddr oaddr inp out olen n m :
  decompress_with e eh true iaddr oaddr inp out olen = Done (0, n, m) -> decompress_with e eh false iaddr oaddr inp out olen = Done (0, n, m).
Proof.
  unfold decompress_with. destruct (negb (iaddr mod 8 =? 0) || negb (oaddr mod 8 =? 0)); [auto|].
  destruct (loop_with e eh (S (Z.to_nat (8 * lenZ inp))) inp olen (mkP 0 0 0 0 out 0)) as [[ret p]| |]; cbn [bind]; try discriminate.
  destruct (negb (ret =? 0)); [auto|].
  destruct (read_bits_with e eh inp p CRC_BITS) as [[c p1]| |] eqn:RB; cbn [bind]; try discriminate.
  assert (K : q_mem p1 = q_mem p /\ q_pos p1 = q_pos p).
  { revert RB. unfold read_bits_with. destruct (shr64 (q_buffer p) _); cbn [bind]; try discriminate. destruct (q_bits p <? CRC_BITS).
    - destruct (read_word_with e eh inp p) as [[w q]| |] eqn:RW; cbn [bind]; try discriminate.
      assert (KW : q_mem q = q_mem p /\ q_pos q = q_pos p).
      { revert RW. unfold read_word_with. destruct (eh && _). { intros X. injection X as <- <-. unfold raise_einval. destruct (q_err p =? 0); auto. }
        destruct (load64 _ _ _); cbn [bind]; try discriminate. intros X. injection X as <- <-. auto. }
      destruct (shr64 w _); cbn [bind]; try discriminate. destruct (shl64 w _); cbn [bind]; try discriminate. destruct (shl64 _ 1); cbn [bind]; try discriminate.
      intros X. injection X as <- <-. exact KW.
    - destruct (shl64 _ _); cbn [bind]; try discriminate. intros X. injection X as <- <-. auto. }
  destruct K as [<- <-]. destruct (eh && negb (q_err p1 =? 0)) eqn:EE.
  { intros X. injection X as X _ _. rewrite X in EE. destruct eh; discriminate. }
  destruct (crc32_be e oaddr 0 (q_mem p1) (q_pos p1)) as [c'| |]; cbn [bind]; try discriminate.
  destruct (negb (c =? c')); [discriminate|auto].
Qed.

(** * The compressor *)
(** The bits of the blocks, without repeats and zeros. *)
Fixpoint ploop (st : ostate) (pos : nat) (blocks : list (list Z)) : list bool :=
  match blocks with [] => [] | b :: bs => obits st b ++ ploop (onx true st b pos) (pos + 8) bs end.
(** The bits before the CRC. *)
Definition body (strict : bool) (x : list Z) : list bool :=
  let '(B, r) := if strict then gloop ostate obits onx ostate_init 0 (blocks_of x) None 0 else (ploop ostate_init 0 (blocks_of x), 0) in
  B ++ rep_bits_opt r ++ bits_of 5 0x1e.
Definition cbits (strict crc : bool) (x : list Z) : list bool := body strict x ++ if crc then bits_of 32 (crc32 x) else [].
Definition cout (strict crc : bool) (x : list Z) : list Z := pack (pad (cbits strict crc x)).

Lemma ploop_stream sw blocks : forall pre st, is_bytes pre -> Forall (fun b => length b = 8%nat /\ is_bytes b) blocks -> (exists q, length pre = (8 * q)%nat) -> odict_ok pre st ->
  forall bs x rest, stream sw (pre ++ concat blocks) bs x rest -> stream sw pre (ploop st (length pre) blocks ++ bs) x rest.
Proof.
  induction blocks as [|b bs IH]; intros pre st Hpre Hbl [q Hq] Hst y x rest; cbn [ploop concat]; [now rewrite app_nil_r|].
  inversion Hbl as [|? ? [Lb Bb] Hbl']; subst. intros HS. rewrite <- app_assoc. eapply obits_stream; eauto.
  replace (length pre + 8)%nat with (length (pre ++ b)) by (rewrite app_length; lia). apply IH; auto.
  - apply is_bytes_app. auto.
  - exists (S q). rewrite app_length. lia.
  - eapply onx_inv; eauto.
  - now rewrite <- app_assoc.
Qed.
Lemma ploop_len blocks : Forall (fun b => length b = 8%nat /\ is_bytes b) blocks -> forall pre st, (exists q, length pre = (8 * q)%nat) -> odict_ok pre st ->
  lenZ (ploop st (length pre) blocks) <= 69 * lenZ blocks.
Proof.
  induction 1 as [|b bs [Lb Bb] HB IH]; intros pre st [q Hq] Hst; cbn [ploop]; [unfold lenZ; cbn; lia|].
  rewrite lenZ_app, lenZ_cons. pose proof (obits_len pre st b Hst Lb).
  replace (length pre + 8)%nat with (length (pre ++ b)) by (rewrite app_length; lia).
  assert (lenZ (ploop (onx true st b (length pre)) (length (pre ++ b)) bs) <= 69 * lenZ bs); [|lia].
  apply IH; [exists (S q); rewrite app_length; lia|]. eapply onx_inv; eauto.
Qed.
Lemma concat_blocks (x : list Z) : (length x mod 8 = 0)%nat -> concat (blocks_of x) = x.
Proof. intros Hm. pose proof (tail_length x) as TL. rewrite Hm in TL. apply length_zero_iff_nil in TL. rewrite (blocks_tail x) at 2. rewrite TL. now rewrite app_nil_r. Qed.
Lemma body_stream sw strict x rest : is_bytes x -> (length x mod 8 = 0)%nat -> stream sw [] (body strict x ++ rest) x rest.
Proof.
  intros Hx Hm. pose proof (concat_blocks x Hm) as T. unfold body. destruct strict.
  - assert (P0 : pend 0 [] []) by (split; [reflexivity|lia]). assert (N0 : 0 < 0 -> @None (list Z) <> None) by lia.
    pose proof (gloop_stream ostate obits onx odict_ok onx_inv (fun sw pre s b q bs x rest A B C D E F => obits_stream sw pre s b q bs x rest A B C D E F)
      sw (blocks_of x) [] ostate_init None 0 [] (Forall_nil _) (blocks_bytes x Hx) (ex_intro _ 0%nat eq_refl) odict_init Logic.I ltac:(lia) P0 N0) as L.
    change (length (@nil Z)) with 0%nat in L. destruct (gloop ostate obits onx ostate_init 0 (blocks_of x) None 0) as [B r].
    destruct L as (R & out' & [P PL] & S). cbn [app] in P. rewrite <- !app_assoc. apply S. rewrite T in P.
    unfold rep_bits_opt. destruct (Z.eqb_spec r 0) as [->|NZ].
    + cbn [app]. cbn in P. rewrite app_nil_r in P. rewrite <- P. apply st_end.
    + unfold rep_bits. rewrite <- app_assoc. apply st_repeat; [lia|apply PL; lia|]. replace (Z.to_nat (r - 1) + 1)%nat with (Z.to_nat r) by lia. rewrite <- P. apply st_end.
  - change (rep_bits_opt 0) with (@nil bool). cbn [app]. rewrite <- app_assoc.
    apply (ploop_stream sw (blocks_of x) [] ostate_init (Forall_nil _) (blocks_bytes x Hx) (ex_intro _ 0%nat eq_refl) odict_init). cbn [app]. rewrite T. apply st_end.
Qed.
Lemma body_len strict x : is_bytes x -> (length x mod 8 = 0)%nat -> lenZ (body strict x) <= 69 * (lenZ x / 8) + 5.
Proof.
  intros Hx Hm. destruct strict.
  - pose proof (opt_bits_len x Hx Hm) as L. unfold opt_bits, gbits in L. unfold body. destruct (gloop ostate obits onx ostate_init 0 (blocks_of x) None 0) as [B r].
    rewrite !lenZ_app, !lenZ_bits_of in *. lia.
  - unfold body. change (rep_bits_opt 0) with (@nil bool). cbn [app]. rewrite lenZ_app, lenZ_bits_of.
    pose proof (ploop_len (blocks_of x) (blocks_bytes x Hx) [] ostate_init (ex_intro _ 0%nat eq_refl) odict_init) as L. change (length (@nil Z)) with 0%nat in L.
    assert (LB : lenZ (blocks_of x) = lenZ x / 8) by (unfold lenZ; rewrite blocks_count, Nat2Z.inj_div; reflexivity). rewrite LB in L. lia.
Qed.
Lemma cout_bits strict crc x : bytes_bits (cout strict crc x) = pad (cbits strict crc x).
Proof.
  apply pack_bits. pose proof (pad_length (cbits strict crc x)) as P. unfold lenZ in P.
  apply Nat2Z.inj. rewrite Nat2Z.inj_mod, P. change (Z.of_nat 8) with 8. rewrite Z.mul_comm, Z.mod_mul; lia.
Qed.
Lemma cout_length strict crc x : lenZ (cout strict crc x) = padded_size (cbits strict crc x).
Proof.
  unfold cout, lenZ. rewrite pack_length. pose proof (pad_length (cbits strict crc x)) as P. unfold lenZ in P.
  rewrite Nat2Z.inj_div, P. change (Z.of_nat 8) with 8. rewrite Z.mul_comm, Z.div_mul; lia.
Qed.

Lemma plain_loop_ok e cap m0 inp : is_bytes inp ->
  forall blocks pre st s E, inp = pre ++ concat blocks -> Forall (fun b => length b = 8%nat) blocks -> (exists q, length pre = (8 * q)%nat) -> odict_ok pre st -> bsw cap m0 s E ->
  lsem cap m0 E (ploop st (length pre) blocks) 0 (plain_loop e (length blocks) inp s st (lenZ pre) (lenZ (concat blocks))).
Proof.
  intros Hinp blocks. induction blocks as [|b bs IH]; intros pre st s E Hi Hlen [q Hq] Hst HS.
  - cbn [ploop concat length plain_loop]. left. rewrite lenZ_nil.
    pose proof HS as [? ? ? ? ? ? ? ? ? ? ?]. split; [lia|].
    change (0 >? 7) with false. cbv iota. exists s. split; [reflexivity|]. now rewrite app_nil_r.
  - pose proof (Forall_inv Hlen) as Lb. pose proof (Forall_inv_tail Hlen) as Hlen'. cbv beta in Lb.
    cbn [concat] in *.
    assert (Hb : b = slice (length pre) 8 inp).
    { rewrite Hi. rewrite slice_app_r by lia. rewrite Nat.sub_diag. rewrite slice_app_l by lia.
      unfold slice. cbn [skipn]. symmetry. apply firstn_all2. lia. }
    assert (LI : (length pre + 8 <= length inp)%nat) by (rewrite Hi, !app_length; lia).
    assert (Hi' : inp = (pre ++ b) ++ concat bs) by (rewrite Hi, <- !app_assoc; reflexivity).
    cbn [length plain_loop ploop].
    assert (LB8 : lenZ b = 8) by (unfold lenZ; lia).
    rewrite !lenZ_app, LB8. set (rest := lenZ (concat bs)) in *.
    assert (0 <= rest) by apply lenZ_nonneg.
    rewrite Z.gtb_ltb. destruct (Z.ltb_spec 7 (8 + rest)); [|lia].
    rewrite load64_ok by (unfold lenZ; lia). rewrite bind_done.
    rewrite !(lenZ_of pre).
    rewrite (oget_next_data_ok e inp (length pre) b Hinp LI Hb), bind_done.
    replace (8 + rest - 8) with rest by lia.
    assert (Q' : exists q', length (pre ++ b) = (8 * q')%nat) by (exists (S q); rewrite app_length; lia).
    assert (LP : length (pre ++ b) = (length pre + 8)%nat) by (rewrite app_length; lia).
    assert (LPZ : lenZ (pre ++ b) = Z.of_nat (length pre) + 8) by (unfold lenZ; lia).
    destruct (oprocess_next_ok e cap m0 inp (length pre) b pre st s E Hinp LI Hb Hst HS) as (ok & s' & EQ & SM).
    rewrite EQ, bind_done. clear EQ.
    destruct SM as [(F & s2 & X & W)|(F & s2 & X & W)]; injection X as -> ->.
    + destruct (onx_ok true pre st b q Hq Hst Lb) as [EU Hst']. cbn iota in EU. rewrite EU, bind_done.
      specialize (IH (pre ++ b) (onx true st b (length pre)) s2 _ Hi' Hlen' Q' Hst' W). rewrite LP, LPZ in IH.
      destruct IH as [(F2 & s3 & -> & W2)|(F2 & s3 & i & -> & W2)]; [left|right]; rewrite !lenZ_app in *; (split; [lia|]).
      * eexists; split; eauto. now rewrite app_assoc.
      * eauto.
    + right. rewrite lenZ_app. pose proof (lenZ_nonneg (ploop (onx true st b (length pre)) (length pre + 8) bs)). split; [lia|]. eauto.
Qed.

Theorem compress_with_out e strict crc iaddr oaddr inp out olen :
  is_bytes inp -> is_bytes out -> 0 <= olen <= lenZ out -> iaddr mod 8 = 0 -> oaddr mod 8 = 0 ->
  lenZ inp mod 8 = 0 -> inp <> [] ->
  let z := cout strict crc inp in
  (lenZ z <= olen /\ exists m, compress_with e strict crc iaddr oaddr inp out olen = Done (0, lenZ z, m) /\
       firstn (length z) m = z /\ bmem (olen / 8) out m) \/
  (olen < lenZ z /\ exists m, compress_with e strict crc iaddr oaddr inp out olen = Done (- ENOSPC, 0, m) /\ bmem (olen / 8) out m).
Proof.
  intros Hinp Hout Hcap HA HO HM HN z.
  set (cap := olen / 8).
  assert (PZ : lenZ z = 8 * ((lenZ (cbits strict crc inp) + 63) / 64)) by apply cout_length.
  assert (CZ : lenZ z <= olen <-> (lenZ (cbits strict crc inp) + 63) / 64 <= cap).
  { rewrite PZ. unfold cap. split; intros.
    - apply Z.div_le_lower_bound; lia.
    - pose proof (Z.mul_div_le olen 8 ltac:(lia)). lia. }
  unfold compress_with. rewrite HM, HA, HO. change (negb (0 =? 0)) with false. cbn [orb]. cbv iota.
  assert (LN : 0 < lenZ inp). { destruct inp; [congruence|]. rewrite lenZ_cons. pose proof (lenZ_nonneg inp). lia. }
  assert (L8 : 8 <= lenZ inp). { pose proof (Z.div_mod (lenZ inp) 8 ltac:(lia)). lia. }
  pose proof (bsw_open cap olen out Hout Hcap eq_refl) as W0.
  pose proof (blocks_tail inp) as BT. pose proof (blocks_len inp) as BLn. pose proof (blocks_count inp) as BC.
  assert (TN : tail_of inp = []).
  { apply length_zero_iff_nil. rewrite tail_length. apply Nat2Z.inj. rewrite Nat2Z.inj_mod. exact HM. }
  rewrite TN, app_nil_r in BT.
  rewrite load64_ok by lia. rewrite bind_done. change (Z.to_nat 0) with 0%nat.
  set (b0 := slice 0 8 inp).
  assert (B0 : is_bytes b0) by now apply is_bytes_slice.
  assert (LR : last_rel e None (u64 (Z.lnot (native_val e b0))) (blocks_of inp)).
  { unfold last_rel. unfold blocks_of. destruct (length inp / 8)%nat as [|q] eqn:Q. { cbn. auto. }
    cbn [seq map]. change (8 * 0)%nat with 0%nat. fold b0. apply lnot_neq; auto. apply slice_length. unfold lenZ in L8. lia. }
  assert (FL : (length inp / 8)%nat = Z.to_nat (lenZ inp / 8)) by (unfold lenZ; rewrite <- (Nat2Z.id (length inp / 8)), Nat2Z.inj_div; reflexivity).
  assert (L : let '(B, r) := if strict then gloop ostate obits onx ostate_init 0 (blocks_of inp) None 0 else (ploop ostate_init 0 (blocks_of inp), 0) in
    0 <= r <= 63 /\ lsem cap out [] B r
      (if strict then ocomp_loop e (Z.to_nat (lenZ inp / 8)) inp (stream_open out olen) ostate_init 0 (lenZ inp) (u64 (Z.lnot (native_val e b0))) 0
       else plain_loop e (Z.to_nat (lenZ inp / 8)) inp (stream_open out olen) ostate_init 0 (lenZ inp))).
  { destruct strict.
    - pose proof (ocomp_loop_ok e cap out inp Hinp (blocks_of inp) [] ostate_init (stream_open out olen) [] None _ 0
        BT BLn (ex_intro _ 0%nat eq_refl) odict_init LR ltac:(lia) W0) as L.
      change (length (@nil Z)) with 0%nat in L. change (lenZ (@nil Z)) with 0 in L. rewrite <- BT, BC, FL in L. exact L.
    - split; [lia|]. pose proof (plain_loop_ok e cap out inp Hinp (blocks_of inp) [] ostate_init (stream_open out olen) [] BT BLn (ex_intro _ 0%nat eq_refl) odict_init W0) as L.
      change (length (@nil Z)) with 0%nat in L. change (lenZ (@nil Z)) with 0 in L. rewrite <- BT, BC, FL in L. exact L. }
  unfold z, cout, cbits, body in *. clear z.
  destruct (if strict then gloop ostate obits onx ostate_init 0 (blocks_of inp) None 0 else (ploop ostate_init 0 (blocks_of inp), 0)) as [B r]. destruct L as [R L].
  set (C := if crc then bits_of 32 (crc32 inp) else []) in *.
  set (F := (B ++ rep_bits_opt r ++ bits_of 5 30) ++ C) in *.
  assert (LF : lenZ F = lenZ B + lenZ (rep_bits_opt r) + 5 + lenZ C) by (unfold F; rewrite !lenZ_app, !lenZ_bits_of; lia).
  pose proof (lenZ_nonneg C) as CN.
  set (z := pack (pad F)) in *.
  pose proof (Z.div_mod (lenZ F + 63) 64 ltac:(lia)) as DMF. pose proof (Z.mod_pos_bound (lenZ F + 63) 64 ltac:(lia)) as MPF.
  (* the case of an exception *)
  assert (FAIL : forall s, 64 * cap < lenZ F -> bmem cap out (s_mem s) ->
    (lenZ z <= olen /\ (exists m, Done (- ENOSPC, 0, s_mem s) = Done (0, lenZ z, m) /\ firstn (length z) m = z /\ bmem cap out m)) \/
    (olen < lenZ z /\ (exists m, Done (- ENOSPC, 0, s_mem s) = Done (- ENOSPC, 0, m) /\ bmem cap out m))).
  { intros s HF HB. right. split; [lia|]. eauto. }
  pose proof (lenZ_nonneg (rep_bits_opt r)) as RN.
  destruct L as [(FT & s1 & -> & S1)|(FT & s1 & k & -> & S1)]; rewrite bind_done.
  2: { rewrite bind_done. rewrite lenZ_nil in FT. apply FAIL; auto. lia. }
  cbn [app] in S1.
  assert (TAIL : sem cap out B (rep_bits_opt r ++ bits_of 5 30 ++ C)
    (andthen (if negb (r =? 0) then oadd_repeat_template e s1 r else Done (true, s1)) (fun s2 =>
         andthen (oadd_end_template e s2) (fun s3 =>
           if crc then (crc <- crc32_be e iaddr 0 inp (lenZ inp) ;; stream_write_bits e s3 crc CRC_BITS) else Done (true, s3))))).
  { apply sem_seq.
    - unfold rep_bits_opt. destruct (Z.eqb_spec r 0); cbn [negb].
      + left. rewrite lenZ_nil, app_nil_r. split; [pose proof S1 as [? ? ? ? ? ? ? ? ? ? ?]; lia|]. eauto.
      + apply oadd_repeat_ok; auto. lia.
    - intros s2 S2. apply sem_seq.
      + apply (sem_write e cap out s2 _ OP_END OP_BITS S2); unfold OP_BITS, OP_END; lia.
      + intros s3 S3. unfold C. destruct crc.
        * rewrite (crc32_be_spec e inp Hinp iaddr (lenZ inp) ltac:(lia)), bind_done.
          replace (firstn (Z.to_nat (lenZ inp)) inp) with inp by (unfold lenZ; rewrite Nat2Z.id; symmetry; apply firstn_all).
          pose proof (crc32_R inp) as CR. unfold CrcProofs.R in CR.
          apply (sem_write e cap out s3 _ (crc32 inp) CRC_BITS S3); unfold CRC_BITS; lia.
        * left. rewrite lenZ_nil, app_nil_r. split; [pose proof S3 as [? ? ? ? ? ? ? ? ? ? ?]; lia|]. eauto. }
  assert (ASSOC : andthen (if negb (r =? 0) then oadd_repeat_template e s1 r else Done (true, s1)) (fun s2 =>
         andthen (oadd_end_template e s2) (fun s3 =>
           if crc then (crc <- crc32_be e iaddr 0 inp (lenZ inp) ;; andthen (stream_write_bits e s3 crc CRC_BITS) (stream_flush e)) else stream_flush e s3))
     = andthen (andthen (if negb (r =? 0) then oadd_repeat_template e s1 r else Done (true, s1)) (fun s2 =>
         andthen (oadd_end_template e s2) (fun s3 =>
           if crc then (crc <- crc32_be e iaddr 0 inp (lenZ inp) ;; stream_write_bits e s3 crc CRC_BITS) else Done (true, s3)))) (stream_flush e)).
  { clear TAIL. unfold andthen. destruct (if negb (r =? 0) then _ else _) as [[[|] s2]| |]; cbn [bind]; auto.
    destruct (oadd_end_template e s2) as [[[|] s3]| |]; cbn [bind]; auto.
    destruct crc; [|reflexivity]. destruct (crc32_be e iaddr 0 inp (lenZ inp)); cbn [bind]; auto. }
  rewrite ASSOC. clear ASSOC.
  destruct TAIL as [(F1 & s2 & -> & S2)|(F1 & s2 & -> & S2)]; unfold andthen; rewrite !bind_done.
  2: { apply FAIL; auto. rewrite !lenZ_app, !lenZ_bits_of in F1. lia. }
  replace (B ++ rep_bits_opt r ++ bits_of 5 30 ++ C) with F in S2 by (unfold F; rewrite <- !app_assoc; reflexivity).
  destruct (stream_flush_ok e cap out s2 F S2) as [(F2 & s3 & -> & S3 & Z3)|(F2 & s3 & -> & S3)]; rewrite bind_done.
  - set (k := Z.to_nat ((64 - lenZ F mod 64) mod 64)) in *.
    pose proof S3 as [_ _ _ PT _ PL ML MB DN _ _]. rewrite Z3 in PL.
    assert (KP : F ++ repeat false k = pad F).
    { unfold pad. f_equal. f_equal. rewrite lenZ_app in PL. unfold lenZ in PL at 2. rewrite repeat_length in PL.
      unfold k in *. unfold padded_size. pose proof (Z.mod_pos_bound (64 - lenZ F mod 64) 64 ltac:(lia)). lia. }
    assert (LZ : lenZ z = 8 * s_ptr s3).
    { rewrite PZ. rewrite lenZ_app in PL. unfold lenZ in PL at 2. rewrite repeat_length in PL.
      unfold k in PL. pose proof (Z.mod_pos_bound (64 - lenZ F mod 64) 64 ltac:(lia)). lia. }
    left. split. { apply CZ. lia. } exists (s_mem s3). unfold stream_size. rewrite <- LZ. split; [reflexivity|].
    split; [|eapply bsw_bmem; eauto].
    apply bytes_bits_inj. { now apply is_bytes_firstn. } { apply pack_bytes. }
    replace (length z) with (Z.to_nat (8 * s_ptr s3)) by (unfold lenZ in LZ; lia). rewrite DN, KP.
    rewrite firstn_all2. 2: { rewrite <- KP. unfold lenZ in PL. lia. }
    symmetry. apply pack_bits. pose proof (pad_length F) as P. unfold lenZ in P.
    apply Nat2Z.inj. rewrite Nat2Z.inj_mod, P. change (Z.of_nat 8) with 8. rewrite Z.mul_comm, Z.mod_mul; lia.
  - apply FAIL; auto. pose proof (Z.mod_pos_bound (64 - lenZ F mod 64) 64 ltac:(lia)).
    pose proof (Z.div_mod (lenZ F) 64 ltac:(lia)). pose proof (Z.mod_pos_bound (lenZ F) 64 ltac:(lia)).
    rewrite Z2Nat.id in F2 by lia.
    destruct (Z.eq_dec (lenZ F mod 64) 0) as [E0|E0].
    + rewrite E0 in F2. change ((64 - 0) mod 64) with 0 in F2. lia.
    + rewrite Z.mod_small in F2 by lia. lia.
Qed.

Lemma compress_unaligned e strict crc iaddr oaddr inp out olen : al iaddr oaddr = false -> compress_with e strict crc iaddr oaddr inp out olen = optsw842_compress e iaddr oaddr inp out olen.
Proof. intros A. rewrite ocomp_unaligned by auto. unfold compress_with. rewrite al_cond, A. reflexivity. Qed.
Lemma decompress_unaligned e eh crc iaddr oaddr inp out olen : al iaddr oaddr = false -> decompress_with e eh crc iaddr oaddr inp out olen = optsw842_decompress e iaddr oaddr inp out olen.
Proof. intros A. rewrite odecomp_unaligned by auto. unfold decompress_with. rewrite al_cond, A. reflexivity. Qed.

Lemma cout_holds strict crc x : is_bytes x -> (length x mod 8 = 0)%nat -> holds_842 crc (cout strict crc x) x.
Proof.
  intros Hx Hm. unfold holds_842. rewrite cout_bits. unfold pad. unfold cbits at 1. eexists. rewrite <- app_assoc. destruct crc.
  - apply body_stream; auto.
  - apply body_stream; auto.
Qed.
Lemma holds_valid z x : holds_842 true z x <-> valid_842 false z x.
Proof. reflexivity. Qed.
Lemma holds_any crc z x : holds_842 crc z x -> holds_842 false z x.
Proof. intros [rest H]. eexists. exact H. Qed.

Theorem c98_output strict crc inp : is_bytes inp -> lenZ inp mod 8 = 0 -> inp <> [] ->
  exists z, is_bytes z /\ holds_842 crc z inp /\ lenZ z mod 8 = 0 /\ lenZ z <= words64 (69 * (lenZ inp / 8) + 5 + (if crc then 32 else 0)) /\
  forall e iaddr oaddr out olen, is_bytes out -> 0 <= olen <= lenZ out -> iaddr mod 8 = 0 -> oaddr mod 8 = 0 ->
    observed (compress_with e strict crc iaddr oaddr inp out olen) = (if lenZ z <=? olen then Done (0, lenZ z, z) else Done (- ENOSPC, 0, [])) /\
    exists ret n m, compress_with e strict crc iaddr oaddr inp out olen = Done (ret, n, m) /\ length m = length out /\ skipn (Z.to_nat olen) m = skipn (Z.to_nat olen) out.
Proof.
  intros Hi HM HN. pose proof (opt_len8 _ HM) as H8. exists (cout strict crc inp). split; [apply pack_bytes|].
  split; [now apply cout_holds|].
  split. { rewrite cout_length. unfold padded_size. rewrite Z.mul_comm. apply Z.mod_mul. lia. }
  split. { rewrite cout_length. pose proof (body_len strict inp Hi H8). unfold padded_size, words64, cbits. rewrite lenZ_app.
    assert (lenZ (if crc then bits_of 32 (crc32 inp) else []) = if crc then 32 else 0) by (destruct crc; [now rewrite lenZ_bits_of|reflexivity]).
    apply Z.mul_le_mono_nonneg_l; [lia|]. apply Z.div_le_mono; lia. }
  intros e iaddr oaddr out olen Ho Hc HA HO.
  destruct (compress_with_out e strict crc iaddr oaddr inp out olen Hi Ho Hc HA HO HM HN) as [(A & m & -> & F & B)|(A & m & -> & B)]; cbn [observed];
    (split; [|apply bmem_frame in B; [|lia]; eauto 8]).
  - apply Z.leb_le in A. rewrite A. now rewrite firstn_lenZ.
  - apply Z.leb_gt in A. now rewrite A.
Qed.

(** The decompressor with its checks, without the CRC. *)
Lemma checked_pure e iaddr oaddr inp out olen :
  is_bytes inp -> is_bytes out -> 0 <= olen <= lenZ out -> olen < 2 ^ 63 -> iaddr mod 8 = 0 -> oaddr mod 8 = 0 ->
  match qrun inp olen with
  | None | Some PUndef => False
  | Some (PErr c) => (c = - EINVAL \/ c = - ENOSPC) /\ exists m, decompress_with e true false iaddr oaddr inp out olen = Done (c, 0, m) /\ kept olen out m
  | Some (POk x rest) => is_bytes x /\ lenZ x <= olen /\ decompress_with e true false iaddr oaddr inp out olen = Done (0, lenZ x, x ++ skipn (length x) out)
  end.
Proof.
  intros Hinp Hout Hcap H63 HI HO. unfold decompress_with, qrun. rewrite HI, HO. change (negb (0 =? 0)) with false. cbn [orb]. cbv iota. rewrite loop_default.
  assert (S0 : sko olen out (mkP 0 0 0 0 out 0) []).
  { unfold sko. cbn [q_mem q_pos]. rewrite Z.sub_0_r. now apply sk_init. }
  pose proof (odecomp_loop_ok e inp out olen Hinp H63 (S (Z.to_nat (8 * lenZ inp))) (mkP 0 0 0 0 out 0) []
    (bytes_bits (whole inp)) (rdo_init inp out) S0 eq_refl eq_refl) as L.
  assert (FU : (length (bytes_bits (whole inp)) < S (Z.to_nat (8 * lenZ inp)))%nat).
  { rewrite bytes_bits_length, whole_length. pose proof (Nat.mul_div_le (length inp) 8 ltac:(lia)). unfold lenZ. lia. }
  pose proof (qd_loop_fuel _ olen [] (bytes_bits (whole inp)) eq_refl FU) as NF.
  destruct (qd_loop (S (Z.to_nat (8 * lenZ inp))) olen [] (bytes_bits (whole inp))) as [[x rest|c|]|] eqn:Q; [| | |congruence].
  - destruct L as (p & -> & Hr & Hs & E0). rewrite bind_done. change (negb (0 =? 0)) with false. cbv iota.
    split; [apply (sk_obytes _ _ _ _ Hs)|]. split; [apply (sk_fit _ _ _ _ Hs)|].
    pose proof (sk_mem _ _ _ _ Hs) as M. pose proof (sk_pos _ _ _ _ Hs) as PO. cbn [o_mem o_pos] in M, PO. now rewrite M, PO.
  - destruct L as (C & p & out' & -> & Hs). rewrite bind_done. destruct (Z.eqb_spec c 0); [lia|]. cbn [negb].
    apply qd_loop_good in Q. split; auto. eexists. split; [reflexivity|]. apply sk_kept in Hs. exact Hs.
  - exact L.
Qed.
Lemma checked_valid e crc iaddr oaddr inp out olen x :
  is_bytes inp -> is_bytes out -> 0 <= olen <= lenZ out -> olen < 2 ^ 63 -> iaddr mod 8 = 0 -> oaddr mod 8 = 0 ->
  holds_842 crc (whole inp) x -> lenZ x <= olen -> decompress_with e true crc iaddr oaddr inp out olen = Done (0, lenZ x, x ++ skipn (length x) out).
Proof.
  intros Hi Ho Hc H63 HA HO HS Hx. destruct crc.
  - rewrite decompress_default. now apply odecomp_valid.
  - destruct HS as [rest HS]. pose proof (checked_pure e iaddr oaddr inp out olen Hi Ho Hc H63 HA HO) as P.
    rewrite (qrun_stream _ olen _ _ ltac:(lia) HS) in P. destruct (Z.leb_spec (lenZ x) olen); [|lia]. tauto.
Qed.
Theorem c98_input e crc iaddr oaddr inp out olen x :
  is_bytes inp -> is_bytes out -> 0 <= olen <= lenZ out -> olen < 2 ^ 63 -> iaddr mod 8 = 0 -> oaddr mod 8 = 0 ->
  (observed (decompress_with e true crc iaddr oaddr inp out olen) = Done (0, lenZ x, x) <-> holds_842 crc (firstn (8 * (length inp / 8)) inp) x /\ lenZ x <= olen).
Proof.
  intros Hi Ho Hc H63 HA HO. fold (whole inp). destruct crc.
  { rewrite decompress_default. now apply c20. }
  split.
  - intros E. pose proof (checked_pure e iaddr oaddr inp out olen Hi Ho Hc H63 HA HO) as P.
    destruct (qrun inp olen) as [[y rest|c|]|] eqn:PR; [| |contradiction|contradiction].
    + destruct P as (By & Ly & P). rewrite P in E. cbn [observed] in E. rewrite firstn_exact in E. injection E as _ <-.
      apply qrun_sound in PR; [|lia]. destruct PR as (HS & _ & _). split; [exists rest; exact HS|auto].
    + destruct P as (C & m' & P & _). rewrite P in E. cbn [observed] in E. injection E as -> _ _. unfold EINVAL, ENOSPC in C. lia.
  - intros (V & L). rewrite (checked_valid e false iaddr oaddr inp out olen x) by auto. cbn [observed]. now rewrite firstn_exact.
Qed.
Lemma c98_frame e crc iaddr oaddr inp out olen :
  is_bytes inp -> is_bytes out -> 0 <= olen <= lenZ out -> olen < 2 ^ 63 -> iaddr mod 8 = 0 -> oaddr mod 8 = 0 ->
  exists ret n m, decompress_with e true crc iaddr oaddr inp out olen = Done (ret, n, m) /\
    (ret = 0 \/ ((ret = - EINVAL \/ ret = - ENOSPC) /\ n = 0)) /\ 0 <= n <= olen /\ exists w, is_bytes w /\ lenZ w <= olen /\ m = w ++ skipn (length w) out.
Proof.
  intros Hi Ho Hc H63 HA HO. destruct crc. { rewrite decompress_default. now apply c21. }
  pose proof (checked_pure e iaddr oaddr inp out olen Hi Ho Hc H63 HA HO) as P.
  destruct (qrun inp olen) as [[x rest|c|]|] eqn:PR; [| |contradiction|contradiction].
  - destruct P as (Bx & Lx & ->). pose proof (lenZ_nonneg x). do 3 eexists. split; [reflexivity|]. split; [auto|]. split; [lia|]. eauto.
  - destruct P as (C & m & -> & K). do 3 eexists. split; [reflexivity|]. split; [auto|]. split; [lia|]. exact K.
Qed.
Theorem c98_unchecked e crc iaddr oaddr inp out olen x :
  is_bytes inp -> is_bytes out -> lenZ out < 2 ^ 63 -> iaddr mod 8 = 0 -> oaddr mod 8 = 0 ->
  holds_842 crc (firstn (8 * (length inp / 8)) inp) x -> lenZ x <= lenZ out -> decompress_with e false crc iaddr oaddr inp out olen = Done (0, lenZ x, x ++ skipn (length x) out).
Proof.
  intros Hi Ho H63 HA HO HS Hx. fold (whole inp) in HS. pose proof (lenZ_nonneg out).
  apply (unchecked_same e crc iaddr oaddr inp out (lenZ out) olen); auto. apply checked_valid; auto; lia.
Qed.

Lemma compress_holds e strict crc iaddr oaddr inp out olen n m : is_bytes inp -> lenZ inp mod 8 = 0 -> is_bytes out -> 0 <= olen <= lenZ out ->
  compress_with e strict crc iaddr oaddr inp out olen = Done (0, n, m) ->
  let z := firstn (Z.to_nat n) m in is_bytes z /\ holds_842 (crc || negb (al iaddr oaddr)) z inp /\ lenZ z mod 8 = 0.
Proof.
  intros Hi HM Ho Hc E z. destruct (al iaddr oaddr) eqn:A.
  - rewrite orb_false_r. pose proof A as A0. apply al_true in A. destruct A as [A1 A2].
    destruct (list_eq_dec Z.eq_dec inp []) as [->|N].
    { unfold compress_with in E. rewrite al_cond, A0 in E. cbn in E. discriminate. }
    destruct (c98_output strict crc inp Hi HM N) as (z' & B & V & M8 & _ & OB). destruct (OB e iaddr oaddr out olen Ho Hc A1 A2) as [O _].
    rewrite E in O. cbn [observed] in O. fold z in O. destruct (lenZ z' <=? olen); [|discriminate]. injection O as _ ->. auto.
  - rewrite orb_true_r. rewrite compress_unaligned in E by auto.
    assert (NE : inp <> [] \/ iaddr mod 8 <> 0 \/ oaddr mod 8 <> 0).
    { right. unfold al in A. destruct (Z.eqb_spec (iaddr mod 8) 0), (Z.eqb_spec (oaddr mod 8) 0); try discriminate; auto. }
    destruct (c18_bounds e iaddr oaddr inp out olen Hi Ho Hc NE) as (r' & n' & m' & E' & N & L & _). rewrite E' in E. injection E as -> -> ->.
    assert (LF : length z = Z.to_nat n) by (unfold z; rewrite firstn_length; unfold lenZ in *; lia).
    destruct (compressed_valid inp z Hi HM) as (B & V & _ & M8); auto.
    exists e, out, olen. split; auto. split; auto. right. exists iaddr, oaddr, m. rewrite LF. split; [|auto]. rewrite E'. unfold lenZ. rewrite LF, Z2Nat.id by lia. reflexivity.
Qed.
Lemma valid_sw z x : valid_842 false z x -> valid_842 true z x.
Proof.
  intros (rest & HS). exists rest. revert HS. generalize (@nil Z), (bytes_bits z), (bits_of 32 (crc32 x) ++ rest).
  intros o b r. induction 1; try (econstructor; eauto; fail).
Qed.
Theorem c98_round_trip e e' strict ccrc eh dcrc iaddr oaddr iaddr' oaddr' inp out olen n m out2 olen2 :
  is_bytes inp -> lenZ inp mod 8 = 0 -> (lenZ inp <= UINT_MAX \/ iaddr' mod 8 = 0 /\ oaddr' mod 8 = 0) ->
  is_bytes out -> 0 <= olen <= lenZ out ->
  compress_with e strict ccrc iaddr oaddr inp out olen = Done (0, n, m) ->
  (ccrc = true \/ ~ (iaddr mod 8 = 0 /\ oaddr mod 8 = 0) \/ (dcrc = false /\ iaddr' mod 8 = 0 /\ oaddr' mod 8 = 0)) ->
  is_bytes out2 -> lenZ inp <= olen2 <= lenZ out2 -> lenZ out2 < 2 ^ 63 ->
  observed (decompress_with e' eh dcrc iaddr' oaddr' (firstn (Z.to_nat n) m) out2 olen2) = Done (0, lenZ inp, inp).
Proof.
  intros Hi HM HU Ho Hc E HC Ho2 Hc2 H63. destruct (compress_holds _ _ _ _ _ _ _ _ _ _ Hi HM Ho Hc E) as (B & V & M8). set (z := firstn (Z.to_nat n) m) in *.
  assert (HC' : ccrc || negb (al iaddr oaddr) = true \/ (dcrc = false /\ iaddr' mod 8 = 0 /\ oaddr' mod 8 = 0)).
  { destruct HC as [->|[NA|D]]; auto. left. destruct (al iaddr oaddr) eqn:A; [apply al_true in A; contradiction|apply orb_true_r]. }
  clear HC. pose proof (lenZ_nonneg inp). destruct (al iaddr' oaddr') eqn:A'.
  - apply al_true in A'. destruct A' as [A1 A2].
    assert (V' : holds_842 dcrc (firstn (8 * (length z / 8)) z) inp).
    { fold (whole z). rewrite whole_id by auto. destruct HC' as [T|[-> _]]; [|now apply holds_any in V]. rewrite T in V. destruct dcrc; auto. now apply holds_any in V. }
    destruct eh.
    + rewrite (checked_valid e' dcrc iaddr' oaddr' z out2 olen2 inp) by (auto; lia). cbn [observed]. now rewrite firstn_exact.
    + rewrite (c98_unchecked e' dcrc iaddr' oaddr' z out2 olen2 inp) by (auto; lia). cbn [observed]. now rewrite firstn_exact.
  - assert (NA : ~ (iaddr' mod 8 = 0 /\ oaddr' mod 8 = 0)). { intros [X Y]. unfold al in A'. rewrite X, Y in A'. discriminate. }
    destruct HU as [HU|]; [|contradiction]. destruct HC' as [T|(_ & ? & ?)]; [|tauto]. rewrite T in V.
    rewrite decompress_unaligned, odecomp_unaligned by auto. apply c05; auto; try lia. split; [now apply valid_sw|lia].
Qed.

Theorem c98_missing_crc e e' strict iaddr oaddr iaddr' oaddr' inp out olen n m out2 olen2 :
  is_bytes inp -> lenZ inp mod 8 = 0 -> inp <> [] -> is_bytes out -> 0 <= olen <= lenZ out -> iaddr mod 8 = 0 -> oaddr mod 8 = 0 ->
  compress_with e strict false iaddr oaddr inp out olen = Done (0, n, m) ->
  is_bytes out2 -> lenZ inp <= olen2 <= lenZ out2 -> olen2 < 2 ^ 63 -> iaddr' mod 8 = 0 -> oaddr' mod 8 = 0 -> crc32 inp <> 0 ->
  observed (optsw842_decompress e' iaddr' oaddr' (firstn (Z.to_nat n) m) out2 olen2) = Done (- EINVAL, 0, []).
Proof.
  intros Hi HM HN Ho Hc A1 A2 E Ho2 Hc2 H63 A3 A4 NZ. pose proof (opt_len8 _ HM) as H8.
  assert (Z1 : firstn (Z.to_nat n) m = cout strict false inp).
  { destruct (compress_with_out e strict false iaddr oaddr inp out olen Hi Ho Hc A1 A2 HM HN) as [(_ & m' & E' & F & _)|(_ & m' & E' & _)]; rewrite E' in E; [|discriminate].
    injection E as <- <-. unfold lenZ. rewrite Nat2Z.id. exact F. }
  rewrite Z1. set (z := cout strict false inp). pose proof (lenZ_nonneg inp).
  assert (M8 : lenZ z mod 8 = 0). { unfold z. rewrite cout_length. unfold padded_size. rewrite Z.mul_comm. apply Z.mod_mul. lia. }
  pose proof (optsw842_decompress_pure e' iaddr' oaddr' z out2 olen2 (pack_bytes _) Ho2 ltac:(lia) H63 A3 A4) as P.
  assert (HS : exists k, stream false [] (bytes_bits (whole z)) inp (repeat false k)).
  { rewrite whole_id by auto. unfold z. rewrite cout_bits. unfold pad. eexists. unfold cbits at 1. rewrite <- app_assoc. cbn [app]. apply body_stream; auto. }
  destruct HS as [k HS]. rewrite (qrun_stream _ olen2 _ _ ltac:(lia) HS) in P. destruct (Z.leb_spec (lenZ inp) olen2); [|lia].
  destruct P as (m2 & _ & _ & _ & ->). destruct (rdb 32 (repeat false k)) as [[c b]|] eqn:R; [|reflexivity].
  assert (C0 : c = 0).
  { apply rdb_some in R. destruct R as [R RC]. apply (bits_of_inj 32); [exact RC|lia|].
    assert (F : firstn 32 (repeat false k) = bits_of 32 c) by (rewrite R; apply firstn_app_exact; now rewrite bits_of_length).
    rewrite bits_of_0, <- F. assert (L : length (firstn 32 (repeat false k)) = 32%nat) by (rewrite F; apply bits_of_length).
    rewrite firstn_length, repeat_length in L. replace k with (32 + (k - 32))%nat by lia. rewrite repeat_app. apply firstn_app_exact. now rewrite repeat_length. }
  subst c. destruct (Z.eqb_spec 0 (crc32 inp)); [congruence|]. reflexivity.
Qed.
