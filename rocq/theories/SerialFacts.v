(** Consequences of the refinement theorems, in the form used by the property
    theorems about sw842_compress and sw842_decompress. *)
From Coq Require Import ZArith List Bool Lia.
From Verif Require Import SpecBits SpecCrc Spec842 CBase BitsLemmas CrcModel CrcProofs
  SerialCompModel SerialDecompModel SerialWriter SerialDict SerialIdeal SerialComp SerialValid PureDecoder SerialReader SerialDecomp.
Import ListNotations.
Open Scope Z_scope.

(** * Appending input bits *)
Lemma rdb_more n bits v r s : rdb n bits = Some (v, r) -> rdb n (bits ++ s) = Some (v, r ++ s).
Proof. intros H. apply rdb_some in H. destruct H as [-> V]. rewrite <- app_assoc. now apply rdb_app. Qed.
Definition ext (p : pres) (s : list bool) : pres := match p with POk o b => POk o (b ++ s) | x => x end.
Definition ovf (p : pres) : Prop := p = PErr (- EOVERFLOW).

Ltac more := match goal with H : rdb ?n ?b = Some (?v, ?r) |- context [rdb ?n (?b ++ ?s)] => rewrite (rdb_more n b v r s H) end.
Lemma pd_data_more cap n out bits s : pd_data cap n out bits <> PErr (- EOVERFLOW) ->
  pd_data cap n out (bits ++ s) = ext (pd_data cap n out bits) s.
Proof.
  unfold pd_data. destruct (_ >? _); [reflexivity|]. destruct (rdb (8 * n) bits) as [[v r]|] eqn:R; [|congruence].
  intros _. now rewrite (rdb_more _ _ _ _ s R).
Qed.
Lemma pd_index_more cap n out bits s : pd_index cap n out bits <> PErr (- EOVERFLOW) ->
  pd_index cap n out (bits ++ s) = ext (pd_index cap n out bits) s.
Proof.
  unfold pd_index. destruct (rdb _ bits) as [[v r]|] eqn:R; [|congruence].
  intros _. rewrite (rdb_more _ _ _ _ s R). destruct (_ >? _); [reflexivity|]. destruct (_ >? _); reflexivity.
Qed.
Lemma pd_acts_more cap acts s : forall out bits, pd_acts cap acts out bits <> PErr (- EOVERFLOW) ->
  pd_acts cap acts out (bits ++ s) = ext (pd_acts cap acts out bits) s.
Proof.
  induction acts as [|a acts IH]; intros out bits H; cbn [pd_acts] in *; [reflexivity|].
  assert (E : pd_act cap a out (bits ++ s) = ext (pd_act cap a out bits) s).
  { destruct a; cbn [pd_act] in *; [apply pd_data_more|apply pd_index_more]; intros E; rewrite E in H; congruence. }
  rewrite E. destruct (pd_act cap a out bits); cbn [ext]; auto.
Qed.
Lemma pd_step_more cap out bits s : snd (pd_step cap out bits) <> PErr (- EOVERFLOW) ->
  pd_step cap out (bits ++ s) = (fst (pd_step cap out bits), ext (snd (pd_step cap out bits)) s).
Proof.
  unfold pd_step. destruct (rdb 5 bits) as [[op b1]|] eqn:R; [|cbn; congruence]. rewrite (rdb_more _ _ _ _ s R).
  destruct (op =? 0x1b).
  { destruct (rdb 6 b1) as [[rep b2]|] eqn:R2; [|cbn; congruence]. intros _. rewrite (rdb_more _ _ _ _ s R2).
    destruct (_ =? _)%nat; [reflexivity|]. destruct (_ >? _); [reflexivity|]. destruct (_ <? _)%nat; reflexivity. }
  destruct (op =? 0x1c). { destruct (_ >? _); reflexivity. }
  destruct (op =? 0x1d).
  { destruct (rdb 3 b1) as [[k b2]|] eqn:R2; [|cbn; congruence]. rewrite (rdb_more _ _ _ _ s R2).
    destruct (k =? 0); [reflexivity|]. destruct (_ >? _); [reflexivity|].
    destruct (rdb (8 * Z.to_nat k) b2) as [[v b3]|] eqn:R3; [|cbn; congruence]. intros _. now rewrite (rdb_more _ _ _ _ s R3). }
  destruct (op =? 0x1e); [reflexivity|].
  destruct (template op); [|reflexivity]. cbn [fst snd]. intros H. now rewrite pd_acts_more.
Qed.
Lemma pd_loop_append f cap s : forall out bits p, pd_loop f cap out bits = Some p -> p <> PErr (- EOVERFLOW) ->
  pd_loop f cap out (bits ++ s) = Some (ext p s).
Proof.
  induction f as [|f IH]; intros out bits p H N; [discriminate|]. cbn [pd_loop] in *.
  assert (snd (pd_step cap out bits) <> PErr (- EOVERFLOW)) as NS.
  { destruct (pd_step cap out bits) as [[] q]; cbn [snd].
    - congruence. - intros ->. congruence. }
  rewrite (pd_step_more _ _ _ s NS). destruct (pd_step cap out bits) as [fin q]; cbn [fst snd] in *.
  destruct fin. { injection H as ->. reflexivity. }
  destruct q; cbn [ext]; try (injection H as <-; reflexivity). now apply IH.
Qed.

(** * Error codes *)
Definition err_code (c : Z) : Prop := c = - EINVAL \/ c = - ENOSPC \/ c = - EOVERFLOW.
Definition good (p : pres) : Prop := match p with PErr c => err_code c | _ => True end.
Lemma pd_acts_good cap acts : forall out bits, good (pd_acts cap acts out bits) /\ pd_acts cap acts out bits <> PUndef.
Proof.
  induction acts as [|a acts IH]; intros out bits; cbn [pd_acts]. { split; [constructor|discriminate]. }
  assert (E : good (pd_act cap a out bits) /\ pd_act cap a out bits <> PUndef).
  { destruct a; cbn [pd_act]; unfold pd_data, pd_index, good, err_code.
    - destruct (_ >? _); [split; [auto|discriminate]|]. destruct (rdb _ _) as [[v r]|]; split; auto; discriminate.
    - destruct (rdb _ _) as [[v r]|]; [|split; [auto|discriminate]].
      destruct (_ >? _); [split; [auto|discriminate]|]. destruct (_ >? _); split; auto; discriminate. }
  destruct (pd_act cap a out bits); auto.
Qed.
Lemma pd_step_good cap out bits : good (snd (pd_step cap out bits)).
Proof.
  unfold pd_step. assert (A : err_code (- EOVERFLOW) /\ err_code (- ENOSPC) /\ err_code (- EINVAL)) by (unfold err_code; auto).
  destruct A as (A1 & A2 & A3).
  destruct (rdb 5 bits) as [[op b1]|]; [|exact A1].
  destruct (op =? 0x1b).
  { cbn [snd]. destruct (rdb 6 b1) as [[rep b2]|]; [|exact A1].
    destruct (_ =? _)%nat; [exact A3|]. destruct (_ >? _); [exact A2|]. destruct (_ <? _)%nat; exact Logic.I. }
  destruct (op =? 0x1c). { cbn [snd]. destruct (_ >? _); [exact A2|exact Logic.I]. }
  destruct (op =? 0x1d).
  { cbn [snd]. destruct (rdb 3 b1) as [[k b2]|]; [|exact A1].
    destruct (k =? 0); [exact A3|]. destruct (_ >? _); [exact A2|]. destruct (rdb _ b2) as [[v b3]|]; [exact Logic.I|exact A1]. }
  destruct (op =? 0x1e); [exact Logic.I|].
  cbn [snd]. destruct (template op); [|exact A3]. apply pd_acts_good.
Qed.
Lemma pd_loop_good f cap : forall out bits p, pd_loop f cap out bits = Some p -> good p.
Proof.
  induction f as [|f IH]; intros out bits p H; [discriminate|]. cbn [pd_loop] in H.
  pose proof (pd_step_good cap out bits) as G. destruct (pd_step cap out bits) as [[] q]; cbn [snd] in G.
  - now injection H as <-.
  - destruct q; try (injection H as <-; exact G). eapply IH; eauto.
Qed.

(** * When the pure decoder is undefined *)
Definition undef_from (cap : Z) (out : list Z) (bits : list bool) : Prop :=
  exists ds n rest,
    Forall (fun d => is_bytes d /\ (1 <= length d)%nat) ds /\ 0 <= n < 64 /\
    bits = concat (map short_template ds) ++ repeat_template n ++ rest /\
    (1 <= length (out ++ concat ds) <= 7)%nat /\ lenZ (out ++ concat ds) + 8 * (n + 1) <= cap.

Lemma rdb_some' n bits v rest : rdb n bits = Some (v, rest) -> bits = bits_of n v ++ rest /\ 0 <= v < 2 ^ Z.of_nat n.
Proof. exact (rdb_some n bits v rest). Qed.

Lemma pair_inj {A B} (a c : A) (b d : B) : (a, b) = (c, d) -> a = c /\ b = d.
Proof. intros H. now injection H. Qed.
Lemma pd_loop_undef f cap : forall out bits, pd_loop f cap out bits = Some PUndef -> undef_from cap out bits.
Proof.
  induction f as [|f IH]; intros out bits H; [discriminate|]. cbn [pd_loop] in H.
  destruct (pd_step cap out bits) as [fin q] eqn:E.
  unfold pd_step in E. destruct (rdb 5 bits) as [[op b1]|] eqn:R; [|apply pair_inj in E; destruct E as [<- <-]; discriminate].
  pose proof R as R'. apply rdb_some in R. destruct R as [-> OP].
  destruct (Z.eqb_spec op 0x1b) as [->|N1].
  { apply pair_inj in E; destruct E as [<- <-]. destruct (rdb 6 b1) as [[rep b2]|] eqn:R2; [|discriminate].
    apply rdb_some in R2. destruct R2 as [-> RP]. change (2 ^ Z.of_nat 6) with 64 in RP.
    destruct (Nat.eqb_spec (length out) 0) as [|NZ]; [discriminate|].
    rewrite Z.gtb_ltb in H. destruct (Z.ltb_spec cap (lenZ out + (rep + 1) * 8)) as [|C]; [discriminate|].
    destruct (Nat.ltb_spec (length out) 8) as [L|L].
    - exists [], rep, b2. split; [constructor|]. split; [auto|]. cbn [map concat app]. rewrite app_nil_r.
      split; [unfold repeat_template; now rewrite <- app_assoc|]. split; lia.
    - apply IH in H. destruct H as (ds & n & rest & _ & _ & _ & B & _). rewrite !app_length in B. lia. }
  assert (L8 : forall x b, (8 <= length x)%nat -> pd_loop f cap x b = Some PUndef -> False).
  { intros x b L G. apply IH in G. destruct G as (ds & n & rest & _ & _ & _ & B & _). rewrite app_length in B. lia. }
  destruct (Z.eqb_spec op 0x1c) as [->|N2].
  { apply pair_inj in E; destruct E as [<- <-]. destruct (_ >? _); [discriminate|]. exfalso. eapply L8; [|exact H]. rewrite app_length. rewrite repeat_length. lia. }
  destruct (Z.eqb_spec op 0x1d) as [->|N3].
  { apply pair_inj in E; destruct E as [<- <-]. destruct (rdb 3 b1) as [[k b2]|] eqn:R2; [|discriminate].
    apply rdb_some in R2. destruct R2 as [-> K]. destruct (Z.eqb_spec k 0) as [|K0]; [discriminate|].
    destruct (_ >? _); [discriminate|]. destruct (rdb (8 * Z.to_nat k) b2) as [[v b3]|] eqn:R3; [|discriminate].
    apply rdb_some in R3. destruct R3 as [-> V]. apply IH in H. destruct H as (ds & n & rest & F & Hn & EB & B & C).
    exists (be_bytes (Z.to_nat k) v :: ds), n, rest. split. { constructor; auto. rewrite be_bytes_length. split; [apply be_bytes_is_bytes|lia]. }
    split; auto. cbn [map concat]. rewrite (app_assoc out). split; [|split; auto].
    unfold short_template at 1. rewrite be_bytes_length, Z2Nat.id by lia. rewrite bytes_bits_be_bytes, EB, <- !app_assoc. reflexivity. }
  destruct (Z.eqb_spec op 0x1e) as [->|N4]. { apply pair_inj in E; destruct E as [<- <-]. discriminate. }
  destruct (template op) as [acts|] eqn:T; apply pair_inj in E; destruct E as [<- <-]; [|discriminate].
  destruct (pd_acts cap acts out b1) as [o b| |] eqn:A.
  - destruct (template_sizes _ _ T) as (S1 & S2 & _). exfalso. eapply L8; [|exact H].
    destruct (pd_acts_sound _ _ S1 _ _ _ _ A) as (_ & _ & L & _). rewrite L, S2. lia.
  - discriminate.
  - exfalso. eapply pd_acts_good; eauto.
Qed.

Lemma undef_pd_loop cap : forall ds out n rest, Forall (fun d => is_bytes d /\ (1 <= length d)%nat) ds -> 0 <= n < 64 ->
  (1 <= length (out ++ concat ds) <= 7)%nat -> lenZ (out ++ concat ds) + 8 * (n + 1) <= cap ->
  exists f, pd_loop f cap out (concat (map short_template ds) ++ repeat_template n ++ rest) = Some PUndef.
Proof.
  induction ds as [|d ds IH]; intros out n rest F Hn L C; cbn [map concat app] in *.
  - rewrite app_nil_r in *. exists 1%nat. cbn [pd_loop]. unfold pd_step, repeat_template. rewrite <- !app_assoc.
    rewrite rdb_app by (cbn; lia). change (27 =? 27) with true. cbv iota. rewrite rdb_app by (cbn; lia).
    destruct (Nat.eqb_spec (length out) 0); [lia|]. rewrite Z.gtb_ltb. destruct (Z.ltb_spec cap (lenZ out + (n + 1) * 8)); [lia|].
    destruct (Nat.ltb_spec (length out) 8); [reflexivity|lia].
  - inversion F as [|? ? [Bd Ld] F']; subst. rewrite app_assoc in L, C.
    destruct (IH (out ++ d) n rest F' Hn L C) as [f Hf]. exists (S f). cbn [pd_loop].
    rewrite !app_length in L. unfold pd_step, short_template at 1. rewrite <- !app_assoc.
    rewrite rdb_app by (cbn; lia). change (29 =? 27) with false. change (29 =? 28) with false. change (29 =? 29) with true. cbv iota.
    rewrite rdb_app. 2: { change (2 ^ Z.of_nat 3) with 8. lia. }
    destruct (Z.eqb_spec (Z.of_nat (length d)) 0); [lia|]. rewrite Z.gtb_ltb.
    destruct (Z.ltb_spec cap (lenZ out + Z.of_nat (length d))). { rewrite !lenZ_app in C. pose proof (lenZ_nonneg (concat ds)). unfold lenZ in *. lia. }
    destruct (bytes_as_bits d Bd) as [-> BV]. rewrite Nat2Z.id, rdb_app by exact BV.
    rewrite be_bytes_be_val by auto. exact Hf.
Qed.

(** * pure_run *)
Lemma pure_run_of f inp cap p : pd_loop f cap [] (bytes_bits inp) = Some p -> pure_run inp cap = Some p.
Proof.
  intros H. unfold pure_run.
  pose proof (pd_loop_fuel (S (length (bytes_bits inp))) cap [] (bytes_bits inp) ltac:(lia)) as NF.
  destruct (pd_loop (S (length (bytes_bits inp))) cap [] (bytes_bits inp)) as [q|] eqn:E; [|congruence].
  apply (pd_loop_more _ _ _ _ _ (max f (S (length (bytes_bits inp))))) in H; [|lia].
  apply (pd_loop_more _ _ _ _ _ (max f (S (length (bytes_bits inp))))) in E; [|lia]. congruence.
Qed.
Lemma pure_run_stream sw inp cap x rest : stream sw [] (bytes_bits inp) x rest -> 0 <= cap ->
  pure_run inp cap = Some (if lenZ x <=? cap then POk x rest else PErr (- ENOSPC)).
Proof.
  intros HS Hc. destruct (stream_complete cap _ _ _ _ _ HS) as [A B]. destruct (Z.leb_spec (lenZ x) cap).
  - destruct A as [f A]; auto. eapply pure_run_of; eauto.
  - destruct B as [f B]; [rewrite lenZ_nil; lia|]. eapply pure_run_of; eauto.
Qed.
Lemma pure_run_sound inp cap x rest : 0 <= cap -> pure_run inp cap = Some (POk x rest) ->
  stream true [] (bytes_bits inp) x rest /\ is_bytes x /\ lenZ x <= cap.
Proof. intros Hc H. apply pd_loop_sound in H; auto. constructor. Qed.
Lemma stream_det sw sw' inp x x' r r' : stream sw [] (bytes_bits inp) x r -> stream sw' [] (bytes_bits inp) x' r' -> x = x' /\ r = r'.
Proof.
  intros A B. set (cap := Z.max (lenZ x) (lenZ x')).
  assert (0 <= cap) by (pose proof (lenZ_nonneg x); lia).
  pose proof (pure_run_stream _ _ cap _ _ A ltac:(auto)) as E1. pose proof (pure_run_stream _ _ cap _ _ B ltac:(auto)) as E2.
  destruct (Z.leb_spec (lenZ x) cap); [|lia]. destruct (Z.leb_spec (lenZ x') cap); [|lia]. split; congruence.
Qed.

(** * Size of the compressor's output *)
Definition act_width (a : action) : Z := match a with D n => 8 * Z.of_nat n | I n => Z.of_nat (index_bits n) end.
Definition acts_width (l : list action) : Z := fold_right (fun a s => act_width a + s) 0 l.
Lemma acts_bits_len ds blk acts : forall b, (b + acts_len acts <= length blk)%nat -> lenZ (acts_bits ds blk b acts) = acts_width acts.
Proof.
  induction acts as [|a acts IH]; intros b Hb; [reflexivity|]. cbn [acts_bits acts_width fold_right]. fold (acts_width acts).
  cbn [acts_len fold_right] in Hb. fold (acts_len acts) in Hb. rewrite lenZ_app, IH by lia. f_equal.
  destruct a; cbn [act_bits act_width act_len] in *.
  - unfold lenZ. rewrite bytes_bits_length, slice_length by lia. lia.
  - apply lenZ_bits_of.
Qed.
Lemma row_widths : forallb (fun i => (acts_width (row_acts i) <=? 64) && (acts_len (row_acts i) =? 8)%nat) (seq 0 26) = true.
Proof. vm_compute. reflexivity. Qed.
Lemma choose_range ds blk k : forall i, (i <= choose k i ds blk <= i + k)%nat.
Proof. induction k; intros i; cbn [choose]; [lia|]. destruct (acts_ok _ _ _ _); [lia|]. specialize (IHk (S i)). lia. Qed.
Lemma row_width i : (i < 26)%nat -> acts_width (row_acts i) <= 64 /\ acts_len (row_acts i) = 8%nat.
Proof.
  intros Hi. pose proof row_widths as H. rewrite forallb_forall in H. specialize (H i ltac:(apply in_seq; lia)).
  apply andb_true_iff in H. destruct H as [A B]. apply Z.leb_le in A. apply Nat.eqb_eq in B. auto.
Qed.
Lemma blk_bits_len ds blk : length blk = 8%nat -> lenZ (blk_bits ds blk) <= 69.
Proof.
  intros L. unfold blk_bits, tmpl_bits. destruct (_ =? _). { rewrite lenZ_bits_of. lia. }
  rewrite lenZ_app, lenZ_bits_of. pose proof (choose_range ds blk 25 0) as C.
  destruct (row_width (choose 25 0 ds blk) ltac:(lia)) as [W AL]. rewrite acts_bits_len by lia. lia.
Qed.
Lemma rep_bits_len rc : lenZ (rep_bits rc) = 11.
Proof. unfold rep_bits. rewrite lenZ_app, !lenZ_bits_of. reflexivity. Qed.
Lemma rep_bits_opt_len rc : 0 <= rc -> lenZ (rep_bits_opt rc) <= 11 * rc.
Proof. intros. unfold rep_bits_opt. destruct (Z.eqb_spec rc 0). { rewrite lenZ_nil. lia. } rewrite rep_bits_len. lia. Qed.
Lemma ideal_loop_len blocks : Forall (fun b => length b = 8%nat) blocks -> forall ds pos last rc B r, 0 <= rc ->
  ideal_loop ds pos blocks last rc = (B, r) -> 0 <= r /\ lenZ B + 11 * r <= 69 * lenZ blocks + 11 * rc.
Proof.
  induction 1 as [|b bs Hb HB IH]; intros ds pos last rc B r Hrc H; cbn [ideal_loop] in H.
  - apply pair_inj in H; destruct H as [<- <-]. unfold lenZ; cbn [length]; lia.
  - rewrite lenZ_cons. destruct (same last b).
    + destruct (rc + 1 <=? 63).
      * apply IH in H; lia.
      * destruct (ideal_loop _ _ bs _ 0) as [B' r'] eqn:E. apply pair_inj in H; destruct H as [<- <-]. apply IH in E; [|lia].
        rewrite lenZ_app, rep_bits_len. lia.
    + destruct (ideal_loop _ _ bs _ 0) as [B' r'] eqn:E. apply pair_inj in H; destruct H as [<- <-]. apply IH in E; [|lia].
      rewrite !lenZ_app. pose proof (blk_bits_len ds b Hb). pose proof (rep_bits_opt_len rc Hrc). lia.
Qed.
(** Upper bound on the number of bits of a compressed buffer for [n] input bytes. *)
Definition max_bits (n : Z) : Z := 69 * (n / 8) + (if n mod 8 =? 0 then 0 else 8 + 8 * (n mod 8)) + 37.
Lemma tail_length x : length (tail_of x) = (length x mod 8)%nat.
Proof. unfold tail_of. rewrite skipn_length. pose proof (Nat.div_mod (length x) 8 ltac:(lia)). lia. Qed.
Lemma ideal_bits_len x : lenZ (ideal_bits x) <= max_bits (lenZ x).
Proof.
  unfold ideal_bits. destruct (ideal_loop init_dicts 0 (blocks_of x) None 0) as [B r] eqn:E.
  apply ideal_loop_len in E; [|apply blocks_len|lia]. destruct E as [R0 E].
  assert (LB : lenZ (blocks_of x) = lenZ x / 8).
  { unfold blocks_of, lenZ. rewrite map_length, seq_length. rewrite Nat2Z.inj_div. reflexivity. }
  assert (LT : lenZ (short_bits (tail_of x)) = if lenZ x mod 8 =? 0 then 0 else 8 + 8 * (lenZ x mod 8)).
  { unfold short_bits. rewrite tail_length.
    assert (M : lenZ x mod 8 = Z.of_nat (length x mod 8)) by (unfold lenZ; now rewrite Nat2Z.inj_mod). rewrite M.
    destruct (Nat.eqb_spec (length x mod 8) 0) as [->|N]; [reflexivity|].
    destruct (Z.eqb_spec (Z.of_nat (length x mod 8)) 0); [lia|].
    rewrite !lenZ_app, !lenZ_bits_of. unfold lenZ. rewrite bytes_bits_length, tail_length. lia. }
  rewrite !lenZ_app, LT, !lenZ_bits_of. unfold max_bits. pose proof (rep_bits_opt_len r R0). lia.
Qed.
Lemma ideal_out_bound x : lenZ (ideal_out x) <= 8 * ((max_bits (lenZ x) + 63) / 64).
Proof.
  rewrite ideal_out_length. unfold padded_size. pose proof (ideal_bits_len x).
  apply Z.mul_le_mono_nonneg_l; [lia|]. apply Z.div_le_mono; lia.
Qed.
Lemma ideal_out_split x : is_bytes x -> exists used k, bytes_bits (ideal_out x) = used ++ repeat false k /\ (k < 64)%nat /\
  stream true [] used x (bits_of 32 (crc32 x)).
Proof.
  intros Hx. exists (ideal_bits x), (Z.to_nat (8 * padded_size (ideal_bits x) - lenZ (ideal_bits x))). split; [apply ideal_out_bits|].
  pose proof (padded_ge (ideal_bits x)). split; [lia|].
  pose proof (ideal_stream true x [] Hx (or_introl eq_refl)) as S. now rewrite !app_nil_r in S.
Qed.
