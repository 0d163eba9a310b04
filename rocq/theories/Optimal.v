(** sw842_compress chooses the shortest encoding: lemmas behind PropOptimal.v. *)
From Coq Require Import ZArith List Bool Lia.
From Verif Require Import SpecBits SpecCrc Spec842 SpecCalls CBase BitsLemmas SerialCompModel SerialDict SerialIdeal SerialComp SerialValid
  PureDecoder SerialFacts SerialProps Expansion SpecOptimal.
Import ListNotations.
Open Scope Z_scope.

(** * Cost of templates *)
Definition act_cost (a : action) : nat := match a with D n => 8 * n | I n => index_bits n end.
Definition acts_cost (acts : list action) : nat := fold_right (fun a s => act_cost a + s)%nat 0%nat acts.

Lemma args_cost out acts bits x rest : args out acts bits x rest -> length bits = (acts_cost acts + length rest)%nat.
Proof.
  induction 1 as [|out n d acts bs out' rest L B A IH|out n i p acts bs out' rest L R A IH]; cbn [acts_cost fold_right act_cost]; try fold (acts_cost acts); auto.
  - rewrite app_length, IH, bytes_bits_length, L. lia.
  - rewrite app_length, IH, bits_of_length. lia.
Qed.
Lemma acts_bits_cost ds blk acts : length blk = 8%nat -> forall b, (b + acts_len acts = 8)%nat ->
  length (acts_bits ds blk b acts) = acts_cost acts.
Proof.
  intros LB. induction acts as [|a acts IH]; intros b Hb; [reflexivity|].
  cbn [acts_len fold_right acts_bits acts_cost] in *. fold (acts_len acts) in Hb. fold (acts_cost acts).
  rewrite app_length, IH by lia. f_equal. destruct a as [n|n]; cbn [act_bits act_cost act_len] in *.
  - rewrite bytes_bits_length, slice_length by lia. reflexivity.
  - apply bits_of_length.
Qed.
Definition mono_check : bool :=
  forallb (fun j => forallb (fun i => (acts_cost (row_acts i) <=? acts_cost (row_acts j))%nat) (seq 0 (S j))) (seq 0 26).
Lemma mono_ok : mono_check = true. Proof. vm_compute. reflexivity. Qed.
Lemma row_mono i j : (i <= j < 26)%nat -> (acts_cost (row_acts i) <= acts_cost (row_acts j))%nat.
Proof.
  intros H. pose proof mono_ok as M. unfold mono_check in M. rewrite forallb_forall in M. specialize (M j).
  rewrite in_seq in M. specialize (M ltac:(lia)). rewrite forallb_forall in M. specialize (M i). rewrite in_seq in M.
  specialize (M ltac:(lia)). now apply Nat.leb_le.
Qed.
Definition rows_cover : bool := forallb (fun op => existsb (fun i => row_op i =? Z.of_nat op) (seq 0 26)) (seq 0 26).
Lemma rows_cover_ok : rows_cover = true. Proof. vm_compute. reflexivity. Qed.
Lemma template_row op acts : template op = Some acts -> exists i, (i < 26)%nat /\ row_acts i = acts.
Proof.
  intros T. destruct (template_sizes _ _ T) as (_ & _ & R). pose proof rows_cover_ok as C. unfold rows_cover in C.
  rewrite forallb_forall in C. specialize (C (Z.to_nat op)). rewrite in_seq in C. specialize (C ltac:(lia)).
  apply existsb_exists in C. destruct C as (i & Hi & E). apply in_seq in Hi. apply Z.eqb_eq in E. rewrite Z2Nat.id in E by lia.
  exists i. split; [lia|]. destruct (row_template i ltac:(lia)) as (T' & _). congruence.
Qed.
Lemma template_min op acts : template op = Some acts -> (8 <= acts_cost acts)%nat.
Proof. intros T. destruct (template_row _ _ T) as (i & Hi & <-). apply (row_mono 0 i). lia. Qed.

Lemma choose_first ds blk j : (j <= 25)%nat -> acts_ok ds blk 0 (row_acts j) = true ->
  forall k i, (i + k = 25)%nat -> (i <= j)%nat -> (choose k i ds blk <= j)%nat.
Proof.
  intros Hj HA. induction k; intros i Hk Hi; cbn [choose]; [lia|].
  destruct (acts_ok ds blk 0 (row_acts i)) eqn:A; [lia|].
  apply IHk; [lia|]. destruct (Nat.eq_dec i j) as [->|]; [congruence|lia].
Qed.

(** * What a template of another stream can refer to, the compressor finds *)
Lemma lookup_complete pre ds blk b n q i p : is_bytes pre -> is_bytes blk -> length blk = 8%nat -> dicts_ok pre ds ->
  length pre = (8 * q)%nat -> (n = 2 \/ n = 4 \/ n = 8)%nat -> (b + n <= 8)%nat ->
  refers (length (pre ++ firstn b blk)) n i p -> slice p n (pre ++ firstn b blk) = slice b n blk ->
  0 <= i < 2 ^ Z.of_nat (index_bits n) -> 0 <= lookup ds blk b n.
Proof.
  intros Hpre Hblk Lb Hds Hq Hn Hb HR HS Hi.
  set (N := (2 ^ index_bits n)%nat).
  assert (NP : (0 < N)%nat) by (unfold N; destruct Hn as [->|[->| ->]]; cbn; lia).
  assert (DO : dict_ok N (items n pre) (dict_of ds n)).
  { destruct Hds as [d8 d4 d2]. unfold N. destruct Hn as [->|[->| ->]]; cbn [dict_of index_bits]; assumption. }
  destruct (find_index_spec N _ _ (be_val (slice b n blk)) NP DO) as [[G _]|[_ M]]; [exact G|]. exfalso.
  assert (NZ : Z.of_nat N = 2 ^ Z.of_nat (index_bits n)) by (unfold N; destruct Hn as [->|[->| ->]]; reflexivity).
  assert (LFB : length (firstn b blk) = b) by (rewrite firstn_length; lia).
  unfold refers, window in HR. rewrite app_length, LFB, Hq, <- NZ in HR.
  assert (TT : 8 * (Z.of_nat (8 * q + b) / 8) = Z.of_nat (8 * q)).
  { replace (Z.of_nat (8 * q + b)) with (Z.of_nat b + Z.of_nat q * 8) by lia. rewrite Z.div_add by lia.
    rewrite Z.div_small by lia. lia. }
  rewrite TT in HR. destruct HR as (R1 & R2 & R3).
  assert (PM : exists k, p = (k * n)%nat).
  { exists (p / n)%nat. pose proof (Nat.div_mod p n ltac:(lia)) as DM.
    assert (Z.of_nat p mod Z.of_nat n = 0) as Z0.
    { pose proof (Z.div_mod (Z.of_nat p) (Z.of_nat n * Z.of_nat N) ltac:(nia)) as E. rewrite R1 in E.
      rewrite E. replace (Z.of_nat n * Z.of_nat N * (Z.of_nat p / (Z.of_nat n * Z.of_nat N)) + i * Z.of_nat n)
        with ((Z.of_nat N * (Z.of_nat p / (Z.of_nat n * Z.of_nat N)) + i) * Z.of_nat n) by ring. apply Z.mod_mul. lia. }
    rewrite <- Nat2Z.inj_mod in Z0. lia. }
  destruct PM as (k & ->).
  assert (DV : (length pre / n * n = length pre)%nat).
  { rewrite Hq. destruct Hn as [->|[->| ->]].
    - replace (8 * q)%nat with ((4 * q) * 2)%nat by lia. now rewrite Nat.div_mul by lia.
    - replace (8 * q)%nat with ((2 * q) * 4)%nat by lia. now rewrite Nat.div_mul by lia.
    - replace (8 * q)%nat with (q * 8)%nat by lia. now rewrite Nat.div_mul by lia. }
  assert (KC : (k < length pre / n)%nat) by nia.
  apply (M i k).
  - unfold latest. rewrite items_length. split; [|split; [exact KC|nia]].
    rewrite Nat2Z.inj_mul, (Z.mul_comm (Z.of_nat k)), Z.mul_mod_distr_l in R1 by lia. rewrite Nat2Z.inj_mod. nia.
  - rewrite nth_items by exact KC. rewrite <- HS, slice_app_l; [reflexivity|]. nia.
Qed.

Lemma args_found pre ds blk q : is_bytes pre -> is_bytes blk -> length blk = 8%nat -> dicts_ok pre ds ->
  length pre = (8 * q)%nat -> forall acts b bits rest, Forall (fun a => act_size_ok a = true) acts ->
  (b + acts_len acts = 8)%nat -> args (pre ++ firstn b blk) acts bits (pre ++ blk) rest -> acts_ok ds blk b acts = true.
Proof.
  intros Hpre Hblk Lb Hds Hq acts. induction acts as [|a acts IH]; intros b bits rest HA HL HX; [reflexivity|].
  inversion HA as [|? ? Ha HA']; subst. cbn [acts_len fold_right] in HL. fold (acts_len acts) in HL. cbn [acts_ok].
  assert (LFB : length (firstn b blk) = b) by (rewrite firstn_length; lia).
  assert (PIECE : forall d n, length d = n -> (b + n <= 8)%nat -> (exists t, pre ++ blk = ((pre ++ firstn b blk) ++ d) ++ t) ->
     d = slice b n blk /\ (pre ++ firstn b blk) ++ d = pre ++ firstn (b + n) blk).
  { intros d n Ld Hn (t & E). assert (d = slice b n blk) as ->.
    { rewrite <- !app_assoc in E. apply app_inv_head in E. unfold slice. rewrite E.
      rewrite skipn_app, (skipn_all2 (firstn b blk)), LFB, Nat.sub_diag by lia. cbn [app skipn].
      rewrite firstn_app, Ld, Nat.sub_diag, firstn_O, app_nil_r, firstn_all2 by lia. reflexivity. }
    split; auto. rewrite <- app_assoc, firstn_slice_app by lia. reflexivity. }
  inversion HX; subst; cbn [act_len act_ok act_size_ok] in *.
  - match goal with H : args _ acts _ _ _ |- _ => pose proof (args_extend _ _ _ _ _ H) as EX; rename H into HR end.
    destruct (PIECE d (length d) eq_refl ltac:(lia) EX) as (E1 & E2). rewrite E2 in HR. cbn [andb]. eapply IH; [exact HA'|lia|exact HR].
  - match goal with H : args _ acts _ _ _ |- _ => pose proof (args_extend _ _ _ _ _ H) as EX; rename H into HR end.
    assert (Hn : (n = 2 \/ n = 4 \/ n = 8)%nat) by (rewrite !orb_true_iff, !Nat.eqb_eq in Ha; tauto).
    match goal with H : refers _ _ _ _ |- _ => rename H into RF end.
    assert (LS : length (slice p n (pre ++ firstn b blk)) = n).
    { apply slice_length. unfold refers in RF. pose proof (Z.div_mod (Z.of_nat (length (pre ++ firstn b blk))) 8 ltac:(lia)).
      pose proof (Z.mod_pos_bound (Z.of_nat (length (pre ++ firstn b blk))) 8 ltac:(lia)). lia. }
    destruct (PIECE _ n LS ltac:(lia) EX) as (E1 & E2).
    apply andb_true_iff. split.
    + apply Z.geb_le. apply (lookup_complete pre ds blk b n q i p); auto. lia.
    + rewrite E2 in HR. eapply IH; [exact HA'|lia|exact HR].
Qed.

Lemma tmpl_cheapest pre ds blk q op acts bits rest : is_bytes pre -> is_bytes blk -> length blk = 8%nat -> dicts_ok pre ds ->
  length pre = (8 * q)%nat -> template op = Some acts -> args pre acts bits (pre ++ blk) rest ->
  (length (blk_bits ds blk) + length rest <= 5 + length bits)%nat.
Proof.
  intros Hpre Hblk Lb Hds Hq HT HA. destruct (template_sizes _ _ HT) as (TS & TL & _).
  pose proof (args_cost _ _ _ _ _ HA) as C. unfold blk_bits. destruct (be_val blk =? 0). { rewrite bits_of_length. lia. }
  assert (OK : acts_ok ds blk 0 acts = true).
  { eapply (args_found pre ds blk q); eauto. cbn [firstn]. rewrite app_nil_r. exact HA. }
  destruct (template_row _ _ HT) as (j & Hj & EJ). rewrite <- EJ in OK.
  pose proof (choose_first ds blk j ltac:(lia) OK 25 0 ltac:(lia) ltac:(lia)) as CF.
  destruct (choose_ok 25 0 ds blk ltac:(lia)) as [_ CB]. unfold tmpl_bits. set (i := choose 25 0 ds blk) in *.
  destruct (row_template i ltac:(lia)) as (_ & _ & LI). rewrite app_length, bits_of_length, acts_bits_cost by (auto; lia).
  pose proof (row_mono i j ltac:(lia)) as RM. rewrite EJ in RM. lia.
Qed.

(** * Comparison of the whole streams *)
Definition pendc (r : Z) : Z := if r =? 0 then 0 else 11.
Definition fin_cost (ds : dicts) (pos : nat) (blocks : list (list Z)) (last : option (list Z)) (rc : Z) : Z :=
  let '(B, r) := ideal_loop ds pos blocks last rc in lenZ B + pendc r.
Fixpoint zp (last : option (list Z)) (blocks : list (list Z)) : Z :=
  match blocks with
  | [] => 0
  | b :: bs => (if same last b && (be_val b =? 0) then 1 else 0) + zp (Some b) bs
  end.
Lemma zp_pos blocks : forall last, 0 <= zp last blocks.
Proof. induction blocks as [|b bs IH]; intros last; cbn [zp]; [lia|]. specialize (IH (Some b)). destruct (same last b && (be_val b =? 0)); lia. Qed.
Lemma rep_bits_len rc : lenZ (rep_bits rc) = 11.
Proof. unfold rep_bits, lenZ. rewrite app_length, !bits_of_length. reflexivity. Qed.
Lemma rep_bits_opt_len rc : lenZ (rep_bits_opt rc) = pendc rc.
Proof. unfold rep_bits_opt, pendc. destruct (rc =? 0); [reflexivity|apply rep_bits_len]. Qed.

Lemma fin_nil ds pos last rc : fin_cost ds pos [] last rc = pendc rc.
Proof. reflexivity. Qed.
Lemma fin_same ds pos b bs last rc : same last b = true ->
  fin_cost ds pos (b :: bs) last rc =
  if rc + 1 <=? 63 then fin_cost (next_dicts ds b pos) (pos + 8) bs (Some b) (rc + 1)
  else 11 + fin_cost (next_dicts ds b pos) (pos + 8) bs (Some b) 0.
Proof.
  intros E. unfold fin_cost. cbn [ideal_loop]. rewrite E. destruct (rc + 1 <=? 63); [reflexivity|].
  destruct (ideal_loop _ _ bs (Some b) 0) as [B r]. rewrite lenZ_app, rep_bits_len. ring.
Qed.
Lemma fin_diff ds pos b bs last rc : same last b = false ->
  fin_cost ds pos (b :: bs) last rc = pendc rc + lenZ (blk_bits ds b) + fin_cost (next_dicts ds b pos) (pos + 8) bs (Some b) 0.
Proof.
  intros E. unfold fin_cost. cbn [ideal_loop]. rewrite E.
  destruct (ideal_loop _ _ bs (Some b) 0) as [B r]. rewrite !lenZ_app, rep_bits_opt_len. ring.
Qed.

Lemma next_ok pre ds b q : length pre = (8 * q)%nat -> dicts_ok pre ds -> length b = 8%nat ->
  dicts_ok (pre ++ b) (next_dicts ds b (length pre)).
Proof.
  intros Hq Hds Lb. destruct (update_ok pre ds b q Hq Hds Lb) as (ds' & E & OK). unfold next_dicts. now rewrite E.
Qed.
Lemma same_refl b : same (Some b) b = true.
Proof. cbn [same]. apply Z.eqb_refl. Qed.

(** A run of [k] more copies of the last block. *)
Lemma fin_run b : length b = 8%nat -> forall k pre ds bs rc q, length pre = (8 * q)%nat -> dicts_ok pre ds -> 0 <= rc <= 63 ->
  exists ds', dicts_ok (pre ++ copies k b) ds' /\
  fin_cost ds (length pre) (repeat b k ++ bs) (Some b) rc =
  (let t := rc + Z.of_nat k in 11 * (t / 64) + fin_cost ds' (length (pre ++ copies k b)) bs (Some b) (t mod 64)).
Proof.
  intros Lb. induction k as [|k IH]; intros pre ds bs rc q Hq Hds Hrc.
  - exists ds. change (copies 0 b) with (@nil Z). rewrite app_nil_r. split; auto. cbn [repeat app]. change (Z.of_nat 0) with 0.
    cbv zeta. rewrite Z.add_0_r, Z.div_small, Z.mod_small by lia. ring_simplify. reflexivity.
  - pose proof (next_ok pre ds b q Hq Hds Lb) as OK.
    assert (LP : length (pre ++ b) = (8 * (q + 1))%nat) by (rewrite app_length; lia).
    cbn [repeat app]. rewrite fin_same by apply same_refl.
    replace (length pre + 8)%nat with (length (pre ++ b)) by (rewrite app_length; lia).
    change (copies (S k) b) with (b ++ copies k b). rewrite app_assoc.
    destruct (Z.leb_spec (rc + 1) 63).
    + destruct (IH (pre ++ b) _ bs (rc + 1) _ LP OK ltac:(lia)) as (ds' & O' & E'). exists ds'. split; auto.
      rewrite E'. cbv zeta. replace (rc + 1 + Z.of_nat k) with (rc + Z.of_nat (S k)) by lia. reflexivity.
    + destruct (IH (pre ++ b) _ bs 0 _ LP OK ltac:(lia)) as (ds' & O' & E'). exists ds'. split; auto.
      rewrite E'. cbv zeta. replace rc with 63 by lia. replace (63 + Z.of_nat (S k)) with (0 + Z.of_nat k + 1 * 64) by lia.
      rewrite Z.div_add, Z.mod_add by lia. ring.
Qed.

Lemma zp_run b bs : forall k last, zp (Some b) bs <= zp last (repeat b k ++ bs) \/ k = 0%nat.
Proof.
  induction k as [|k IH]; intros last; [now right|]. left. cbn [repeat app zp].
  destruct (IH (Some b)) as [H| ->]; [destruct (same last b && (be_val b =? 0)); lia|].
  cbn [repeat app]. destruct (same last b && (be_val b =? 0)); lia.
Qed.

Lemma blocks_split (d : list Z) (blocks : list (list Z)) t : length d = 8%nat -> Forall (fun b => length b = 8%nat) blocks ->
  concat blocks = d ++ t -> exists bs, blocks = d :: bs /\ concat bs = t.
Proof.
  intros Ld HB E. destruct blocks as [|b bs]. { destruct d; discriminate. }
  inversion HB as [|? ? Lb HB']; subst. cbn [concat] in E.
  assert (b = d). { apply (f_equal (firstn 8)) in E. rewrite !firstn_app, Lb, Ld, Nat.sub_diag, !firstn_O, !app_nil_r in E. rewrite !firstn_all2 in E by lia. exact E. }
  subst b. apply app_inv_head in E. eauto.
Qed.
Lemma blocks_split_run (d : list Z) k : length d = 8%nat -> forall (blocks : list (list Z)) t, Forall (fun b => length b = 8%nat) blocks ->
  concat blocks = copies k d ++ t -> exists bs, blocks = repeat d k ++ bs /\ concat bs = t.
Proof.
  intros Ld. induction k as [|k IH]; intros blocks t HB E. { exists blocks. auto. }
  change (copies (S k) d) with (d ++ copies k d) in E. rewrite <- app_assoc in E.
  destruct (blocks_split d blocks _ Ld HB E) as (bs & -> & E'). inversion HB; subst.
  destruct (IH bs t ltac:(assumption) E') as (bs' & -> & E''). exists bs'. auto.
Qed.

Lemma compare sw pre bits x rest : stream sw pre bits x rest -> sw = false -> forall blocks ds last rc q,
  x = pre ++ concat blocks -> Forall (fun b => length b = 8%nat) blocks -> is_bytes x ->
  length pre = (8 * q)%nat -> dicts_ok pre ds -> 0 <= rc <= 63 ->
  match last with Some l => (8 <= length pre)%nat /\ l = last8 pre | None => pre = [] end ->
  fin_cost ds (length pre) blocks last rc + 5 + lenZ rest <= lenZ bits + pendc rc + 6 * zp last blocks.
Proof.
  induction 1 as [out rest|out bs out' rest S IH|out n bs out' rest Hn Hl S IH|out d bs out' rest Hsw|out op acts bs out1 bs1 out' rest Hop HT HA S IH];
    intros ESW blocks ds last rc q EX HB BX Hq Hds Hrc HL.
  - assert (blocks = []) as ->.
    { apply (f_equal (@length Z)) in EX. rewrite app_length in EX. destruct blocks as [|b bs]; auto. inversion HB; subst. cbn [concat] in EX. rewrite app_length in EX. lia. }
    rewrite fin_nil. cbn [zp]. rewrite lenZ_app, lenZ_bits_of. lia.
  - destruct (stream_extend _ _ _ _ _ S) as [t ET]. rewrite EX in ET. rewrite <- app_assoc in ET. apply app_inv_head in ET.
    destruct (blocks_split (repeat 0 8) blocks t (repeat_length _ _) HB ET) as (bl & -> & EB). inversion HB as [|? ? Lb HB']; subst x l.
    set (b := repeat 0 8) in *.
    pose proof (next_ok out ds b q Hq Hds eq_refl) as OK.
    assert (LP : length (out ++ b) = (8 * (q + 1))%nat) by (rewrite app_length; unfold b; rewrite repeat_length; lia).
    assert (EX' : out' = (out ++ b) ++ concat bl) by (rewrite EX; cbn [concat]; now rewrite app_assoc).
    assert (NL : (8 <= length (out ++ b))%nat /\ b = last8 (out ++ b)) by (split; [lia|symmetry; now apply last8_app]).
    pose proof (IH ESW bl _ (Some b) 0 _ EX' HB' BX LP OK ltac:(lia) NL) as I0.
    replace (length (out ++ b)) with (length out + 8)%nat in I0 by (rewrite app_length; reflexivity).
    rewrite lenZ_app, lenZ_bits_of. cbn [zp]. change (be_val b =? 0) with true. rewrite andb_true_r.
    destruct (same last b) eqn:SM.
    + rewrite fin_same by auto. destruct (Z.leb_spec (rc + 1) 63).
      * pose proof (IH ESW bl _ (Some b) (rc + 1) _ EX' HB' BX LP OK ltac:(lia) NL) as I1.
        replace (length (out ++ b)) with (length out + 8)%nat in I1 by (rewrite app_length; reflexivity).
        unfold pendc in *. destruct (Z.eqb_spec (rc + 1) 0); [lia|]. destruct (rc =? 0); lia.
      * replace rc with 63 by lia. change (pendc 63) with 11. change (pendc 0) with 0 in I0. lia.
    + rewrite fin_diff by auto. assert (lenZ (blk_bits ds b) = 5) by reflexivity. change (pendc 0) with 0 in I0. lia.
  - destruct (stream_extend _ _ _ _ _ S) as [t ET]. rewrite EX in ET. rewrite <- app_assoc in ET. apply app_inv_head in ET.
    set (b := last8 out) in *. set (k := (Z.to_nat n + 1)%nat) in *.
    assert (Lb : length b = 8%nat) by (apply last8_length; lia).
    destruct (blocks_split_run b k Lb blocks t HB ET) as (bl & -> & EB).
    destruct last as [l|]. 2: { subst out. cbn in Hl. lia. }
    destruct HL as (_ & ->). fold b.
    destruct (fin_run b Lb k out ds bl rc q Hq Hds Hrc) as (ds' & OK & ->). cbv zeta.
    assert (LC : length (out ++ copies k b) = (8 * (q + k))%nat) by (rewrite app_length, copies_length; lia).
    assert (NL : (8 <= length (out ++ copies k b))%nat /\ b = last8 (out ++ copies k b)).
    { split; [lia|]. unfold k. rewrite Nat.add_1_r, copies_S_r, app_assoc. symmetry. now apply last8_app. }
    apply Forall_app in HB. destruct HB as (_ & HB').
    assert (CR : concat (repeat b k) = copies k b). { clear. induction k as [|k IH]; [reflexivity|]. change (copies (S k) b) with (b ++ copies k b). cbn [repeat concat]. now rewrite IH. }
    assert (EX' : out' = (out ++ copies k b) ++ concat bl) by (rewrite EX, concat_app, CR, app_assoc; reflexivity).
    set (t' := rc + Z.of_nat k). pose proof (Z.mod_pos_bound t' 64 ltac:(lia)) as MB. pose proof (Z.div_mod t' 64 ltac:(lia)) as DM.
    pose proof (IH ESW bl ds' (Some b) (t' mod 64) _ EX' HB' BX LC OK ltac:(lia) NL) as I1.
    rewrite !lenZ_app, !lenZ_bits_of.
    destruct (zp_run b bl k (Some b)) as [ZP|ZP]; [|unfold k in ZP; lia].
    unfold pendc in *. assert (KB : 1 <= Z.of_nat k <= 64) by (unfold k; lia).
    assert (t' / 64 = 0 \/ t' / 64 = 1) as [T|T] by (unfold t' in *; lia); rewrite T in *.
    + destruct (Z.eqb_spec (t' mod 64) 0); [unfold t' in *; lia|]. destruct (rc =? 0); lia.
    + destruct (Z.eqb_spec (t' mod 64) 0); destruct (Z.eqb_spec rc 0); try lia.
  - congruence.
  - destruct (stream_extend _ _ _ _ _ S) as [t ET]. destruct (args_extend _ _ _ _ _ HA) as [b EB].
    destruct (template_sizes _ _ HT) as (TS & TL & _). pose proof (args_len _ _ _ _ _ HA TS) as AL.
    assert (Lb : length b = 8%nat) by (rewrite EB, app_length in AL; lia).
    subst out1. rewrite EX in ET. rewrite <- app_assoc in ET. apply app_inv_head in ET.
    destruct (blocks_split b blocks t Lb HB ET) as (bl & -> & EB). inversion HB as [|? ? Lb' HB']; subst x l.
    pose proof (next_ok out ds b q Hq Hds Lb) as OK.
    assert (LP : length (out ++ b) = (8 * (q + 1))%nat) by (rewrite app_length; lia).
    assert (EX' : out' = (out ++ b) ++ concat bl) by (rewrite EX; cbn [concat]; now rewrite app_assoc).
    assert (NL : (8 <= length (out ++ b))%nat /\ b = last8 (out ++ b)) by (split; [lia|symmetry; now apply last8_app]).
    pose proof (IH ESW bl _ (Some b) 0 _ EX' HB' BX LP OK ltac:(lia) NL) as I0.
    replace (length (out ++ b)) with (length out + 8)%nat in I0 by (rewrite app_length; lia).
    pose proof (args_cost _ _ _ _ _ HA) as AC. pose proof (template_min _ _ HT) as TM.
    pose proof (zp_pos bl (Some b)) as ZP.
    rewrite lenZ_app, lenZ_bits_of. cbn [zp].
    assert (Bb : is_bytes b /\ is_bytes out). { rewrite EX in BX. cbn [concat] in BX. apply Forall_app in BX. destruct BX as (B1 & B2). apply Forall_app in B2. tauto. }
    destruct (same last b) eqn:SM.
    + rewrite fin_same by auto. destruct (Z.leb_spec (rc + 1) 63).
      * pose proof (IH ESW bl _ (Some b) (rc + 1) _ EX' HB' BX LP OK ltac:(lia) NL) as I1.
        replace (length (out ++ b)) with (length out + 8)%nat in I1 by (rewrite app_length; lia).
        unfold pendc, lenZ in *. destruct (Z.eqb_spec (rc + 1) 0); [lia|]. destruct (rc =? 0); destruct (be_val b =? 0); cbn [andb]; lia.
      * replace rc with 63 by lia. change (pendc 63) with 11. change (pendc 0) with 0 in I0. unfold lenZ in *. destruct (be_val b =? 0); cbn [andb]; lia.
    + rewrite fin_diff by auto. cbn [andb].
      pose proof (tmpl_cheapest out ds b q op acts bs bs1 ltac:(tauto) ltac:(tauto) Lb Hds Hq HT HA) as CH.
      change (pendc 0) with 0 in I0. unfold lenZ in *. lia.
Qed.

Lemma zero_val b : is_bytes b -> length b = 8%nat -> (be_val b =? 0) = forallb (Z.eqb 0) b.
Proof.
  intros Hb Lb. destruct (Z.eqb_spec (be_val b) 0) as [E|E].
  - rewrite (zero_block b Hb Lb E). reflexivity.
  - symmetry. apply not_true_iff_false. intros F. apply E. rewrite forallb_forall in F.
    assert (b = repeat 0 8) as -> by (apply (nth_ext _ _ 0 0); [now rewrite repeat_length, Lb|]; intros k Hk; rewrite nth_repeat; symmetry; apply Z.eqb_eq, F, nth_In; exact Hk).
    reflexivity.
Qed.
Definition zb (b : list Z) : bool := forallb (Z.eqb 0) b.
Definition pairs (blocks : list (list Z)) : nat :=
  length (filter (fun k => zb (nth k blocks [1]) && zb (nth (S k) blocks [1])) (seq 0 (length blocks))).
Lemma filter_map_S (f : nat -> bool) n : forall s, length (filter f (seq (S s) n)) = length (filter (fun k => f (S k)) (seq s n)).
Proof. induction n; intros s; cbn [seq filter]; auto. destruct (f (S s)); cbn [length]; now rewrite IHn. Qed.
Lemma pairs_cons b c bs : pairs (b :: c :: bs) = ((if zb b && zb c then 1 else 0) + pairs (c :: bs))%nat.
Proof.
  unfold pairs. change (length (b :: c :: bs)) with (S (length (c :: bs))). rewrite <- (cons_seq (length (c :: bs)) 0). cbn [filter].
  change (nth 0 (b :: c :: bs) [1]) with b. change (nth 1 (b :: c :: bs) [1]) with c.
  assert (E : length (filter (fun k => zb (nth k (b :: c :: bs) [1]) && zb (nth (S k) (b :: c :: bs) [1])) (seq 1 (length (c :: bs)))) =
              length (filter (fun k => zb (nth k (c :: bs) [1]) && zb (nth (S k) (c :: bs) [1])) (seq 0 (length (c :: bs))))).
  { rewrite filter_map_S. reflexivity. }
  destruct (zb b && zb c); [apply (f_equal S E)|exact E].
Qed.
Lemma zp_pairs blocks : forall b, is_bytes b -> length b = 8%nat -> Forall (fun b => is_bytes b /\ length b = 8%nat) blocks ->
  zp (Some b) blocks = Z.of_nat (pairs (b :: blocks)).
Proof.
  induction blocks as [|c bs IH]; intros b Hb Lb HF.
  - unfold pairs. cbn [length seq filter nth zp]. rewrite andb_false_r. reflexivity.
  - inversion HF as [|? ? (Bc & Lc) HF']; subst. cbn [zp]. rewrite (IH c Bc Lc HF').
    rewrite pairs_cons. cbn [same].
    assert (C : (be_val c =? be_val b) && (be_val c =? 0) = zb b && zb c).
    { unfold zb. rewrite <- !zero_val by auto. destruct (Z.eqb_spec (be_val c) 0) as [->|N].
      - rewrite !andb_true_r. rewrite Z.eqb_sym. reflexivity.
      - now rewrite !andb_false_r. }
    rewrite C. destruct (zb b && zb c); lia.
Qed.
Lemma nth_blocks x k : (length x = 8 * (length x / 8))%nat -> (k < length x / 8)%nat -> nth k (blocks_of x) [1] = slice (8 * k) 8 x.
Proof.
  intros L H. unfold blocks_of. rewrite nth_indep with (d' := slice (8 * 0) 8 x) by (rewrite map_length, seq_length; auto).
  rewrite (map_nth (fun k => slice (8 * k) 8 x)). rewrite seq_nth; auto.
Qed.
Lemma zp_spec x : is_bytes x -> (length x = 8 * (length x / 8))%nat -> zp None (blocks_of x) = zero_pairs x.
Proof.
  intros Bx L.
  assert (HF : Forall (fun b => is_bytes b /\ length b = 8%nat) (blocks_of x)).
  { pose proof (blocks_len x) as BL. rewrite Forall_forall in *. intros b Hb. split; auto. unfold blocks_of in Hb. apply in_map_iff in Hb. destruct Hb as (k & <- & _). now apply is_bytes_slice. }
  assert (P : zp None (blocks_of x) = Z.of_nat (pairs (blocks_of x))).
  { destruct (blocks_of x) as [|b bs]; [reflexivity|]. inversion HF as [|? ? (Hb & Lb) HF']; subst. cbn [zp same andb]. rewrite zp_pairs; auto. }
  rewrite P. unfold pairs, zero_pairs. rewrite blocks_count. f_equal. f_equal. apply filter_ext_in. intros k Hk. apply in_seq in Hk.
  assert (Z1 : forall j, zb (nth j (blocks_of x) [1]) = zero_block_at x j).
  { intros j. unfold zero_block_at. destruct (Nat.ltb_spec j (length x / 8)) as [H|H].
    - rewrite nth_blocks by auto. unfold zb, slice. destruct (Nat.leb_spec (8 * j + 8) (length x)); [|lia]. now rewrite andb_true_r.
    - rewrite nth_overflow by (rewrite blocks_count; lia). destruct (Nat.leb_spec (8 * j + 8) (length x)); [lia|]. now rewrite andb_false_r. }
  now rewrite !Z1.
Qed.

Theorem optimal e addr inp out olen n m z : is_bytes inp -> is_bytes out -> 0 <= olen <= lenZ out -> lenZ inp mod 8 = 0 ->
  sw842_compress e addr inp out olen = Done (0, n, m) -> valid_842 false z inp ->
  n <= words64 (8 * lenZ z + 6 * zero_pairs inp).
Proof.
  intros Bi Bo Ho H8 E (rest & V).
  assert (L8 : (length inp = 8 * (length inp / 8))%nat).
  { unfold lenZ in H8. pose proof (Nat.div_mod (length inp) 8 ltac:(lia)). assert (Z.of_nat (length inp mod 8) = 0) by (rewrite Nat2Z.inj_mod; exact H8). lia. }
  assert (T0 : tail_of inp = []). { unfold tail_of. rewrite <- L8. apply skipn_all. }
  pose proof (blocks_tail inp) as BT. rewrite T0, app_nil_r in BT.
  pose proof (compare _ _ _ _ _ V eq_refl (blocks_of inp) init_dicts None 0 0%nat BT (blocks_len inp) Bi eq_refl dicts_ok_init ltac:(lia) eq_refl) as C.
  rewrite (zp_spec inp Bi L8) in C. change (pendc 0) with 0 in C. unfold fin_cost in C. cbn [length] in C.
  assert (LI : lenZ (ideal_bits inp) <= 8 * lenZ z + 6 * zero_pairs inp).
  { unfold ideal_bits. destruct (ideal_loop init_dicts 0 (blocks_of inp) None 0) as [B r]. rewrite T0.
    rewrite !lenZ_app, !lenZ_bits_of, rep_bits_opt_len. rewrite lenZ_app, lenZ_bits_of in C.
    assert (lenZ (bytes_bits z) = 8 * lenZ z) by (unfold lenZ; rewrite bytes_bits_length; lia).
    pose proof (lenZ_nonneg rest). change (lenZ (short_bits [])) with 0. lia. }
  pose proof (sw842_compress_ideal e addr inp out olen Bi Bo Ho) as (R1 & R2).
  assert (n = padded_size (ideal_bits inp)) as ->.
  { destruct (Z.le_gt_cases (padded_size (ideal_bits inp)) olen); [destruct (Z.le_gt_cases (padded_size (ideal_bits inp)) UINT_MAX)|].
    - destruct (R1 ltac:(auto)) as (m' & E' & _). congruence.
    - destruct (R2 ltac:(auto)) as (m' & E' & _). rewrite E in E'. discriminate.
    - destruct (R2 ltac:(auto)) as (m' & E' & _). rewrite E in E'. discriminate. }
  unfold padded_size, words64. apply Z.mul_le_mono_nonneg_l; [lia|]. apply Z.div_le_mono; lia.
Qed.
