(** How the capacity changes what the decompressors return. *)
From Coq Require Import ZArith List Bool Lia.
From Verif Require Import SpecBits SpecCrc Spec842 SpecCalls CBase BitsLemmas SerialDecompModel OptDecompModel SerialIdeal SerialValid PureDecoder SerialFacts SerialDecomp OptDecomp SerialProps OptProps.
Import ListNotations.
Open Scope Z_scope.

(** ** More room: the same result, or no longer "no space" *)
Definition no_space (r : pres) : Prop := r = PErr (- ENOSPC).
Lemma pd_act_cap cap cap' a out bits : cap <= cap' -> no_space (pd_act cap a out bits) \/ pd_act cap a out bits = pd_act cap' a out bits.
Proof.
  intros H. unfold no_space. destruct a as [n|n]; cbn [pd_act]; unfold pd_data, pd_index.
  - destruct (Z.gtb_spec (lenZ out + Z.of_nat n) cap); [now left|]. destruct (Z.gtb_spec (lenZ out + Z.of_nat n) cap'); [lia|now right].
  - destruct (rdb _ bits) as [[i r]|]; [|now right]. cbv zeta. destruct (_ >? ptotal _); [now right|].
    destruct (Z.gtb_spec (lenZ out + Z.of_nat n) cap); [now left|]. destruct (Z.gtb_spec (lenZ out + Z.of_nat n) cap'); [lia|now right].
Qed.
Lemma pd_acts_cap cap cap' acts : cap <= cap' -> forall out bits, no_space (pd_acts cap acts out bits) \/ pd_acts cap acts out bits = pd_acts cap' acts out bits.
Proof.
  intros H. induction acts as [|a acts IH]; intros out bits; [now right|]. cbn [pd_acts].
  destruct (pd_act_cap cap cap' a out bits H) as [E|E]; rewrite E; [now left|]. destruct (pd_act cap' a out bits) as [o b|c|]; [apply IH|now right|now right].
Qed.
Lemma pd_step_cap cap cap' out bits : cap <= cap' -> pd_step cap out bits = (false, PErr (- ENOSPC)) \/ pd_step cap out bits = pd_step cap' out bits.
Proof.
  intros H. unfold pd_step. destruct (rdb 5 bits) as [[op b]|]; [|now right].
  destruct (op =? 0x1b).
  { destruct (rdb 6 b) as [[rep b2]|]; [|now right]. destruct (length out =? 0)%nat; [now right|].
    destruct (Z.gtb_spec (lenZ out + (rep + 1) * 8) cap); [now left|]. destruct (Z.gtb_spec (lenZ out + (rep + 1) * 8) cap'); [lia|now right]. }
  destruct (op =? 0x1c).
  { destruct (Z.gtb_spec (lenZ out + 8) cap); [now left|]. destruct (Z.gtb_spec (lenZ out + 8) cap'); [lia|now right]. }
  destruct (op =? 0x1d).
  { destruct (rdb 3 b) as [[k b2]|]; [|now right]. destruct (k =? 0); [now right|].
    destruct (Z.gtb_spec (lenZ out + k) cap); [now left|]. destruct (Z.gtb_spec (lenZ out + k) cap'); [lia|now right]. }
  destruct (op =? 0x1e); [now right|]. destruct (template op) as [acts|]; [|now right].
  destruct (pd_acts_cap cap cap' acts H out b) as [E|E]; rewrite E; auto.
Qed.
Lemma pd_loop_cap cap cap' f : cap <= cap' -> forall out bits, pd_loop f cap out bits = Some (PErr (- ENOSPC)) \/ pd_loop f cap out bits = pd_loop f cap' out bits.
Proof.
  intros H. induction f as [|f IH]; intros out bits; [now right|]. cbn [pd_loop].
  destruct (pd_step_cap cap cap' out bits H) as [E|E]; rewrite E; [now left|]. destruct (pd_step cap' out bits) as [[] [o b|c|]]; auto.
Qed.
Lemma pd_acts_room cap cap' acts : Forall (fun a => act_size_ok a = true) acts -> forall out bits, lenZ out + Z.of_nat (acts_len acts) <= cap -> cap <= cap' ->
  pd_acts cap acts out bits = pd_acts cap' acts out bits.
Proof.
  induction 1 as [|a acts SO HS IH]; intros out bits L H; [reflexivity|]. cbn [pd_acts]. change (acts_len (a :: acts)) with (act_len a + acts_len acts)%nat in L.
  assert (E : pd_act cap a out bits = pd_act cap' a out bits).
  { destruct a as [n|n]; cbn [pd_act act_len] in *; unfold pd_data, pd_index.
    - destruct (Z.gtb_spec (lenZ out + Z.of_nat n) cap); [lia|]. destruct (Z.gtb_spec (lenZ out + Z.of_nat n) cap'); [lia|reflexivity].
    - destruct (rdb _ bits) as [[i r]|]; [|reflexivity]. cbv zeta. destruct (_ >? ptotal _); [reflexivity|].
      destruct (Z.gtb_spec (lenZ out + Z.of_nat n) cap); [lia|]. destruct (Z.gtb_spec (lenZ out + Z.of_nat n) cap'); [lia|reflexivity]. }
  rewrite E. destruct (pd_act cap' a out bits) as [o b|c|] eqn:P; auto. apply IH; auto.
  assert (length o <= length out + act_len a)%nat; [|unfold lenZ in *; lia].
  destruct a as [n|n]; cbn [pd_act act_len] in *; unfold pd_data, pd_index in P.
  - destruct (_ >? cap'); [discriminate|]. destruct (rdb _ bits) as [[v r]|]; [|discriminate]. injection P as <- <-. rewrite app_length, be_bytes_length. lia.
  - destruct (rdb _ bits) as [[i r]|]; [|discriminate]. cbv zeta in P. destruct (_ >? ptotal _); [discriminate|]. destruct (_ >? cap'); [discriminate|].
    injection P as <- <-. rewrite app_length. unfold slice. rewrite firstn_length. lia.
Qed.
Lemma qd_step_cap cap cap' out bits : cap <= cap' -> qd_step cap out bits = (false, PErr (- ENOSPC)) \/ qd_step cap out bits = qd_step cap' out bits.
Proof.
  intros H. unfold qd_step. destruct (rdb 5 bits) as [[op b]|]; [|now right].
  destruct (((op <? 26) || (op =? 0x1c)) && (lenZ out + 8 >? cap)) eqn:C; [now left|].
  replace (((op <? 26) || (op =? 0x1c)) && (lenZ out + 8 >? cap')) with false.
  2: { symmetry. apply andb_false_iff in C. apply andb_false_iff. destruct C as [C|C]; auto. right. rewrite Z.gtb_ltb in *. apply Z.ltb_ge in C. apply Z.ltb_ge. lia. }
  destruct (template op) as [acts|] eqn:T.
  - right. destruct (template_sizes _ _ T) as (TS & TL & TO). rewrite (pd_acts_room cap cap'); auto.
    destruct (Z.ltb_spec op 26); [|lia]. cbn [orb andb] in C. rewrite Z.gtb_ltb in C. apply Z.ltb_ge in C. rewrite TL. lia.
  - destruct (op =? 0x1b); [|now right]. destruct (rdb 6 b) as [[rep b2]|]; [|now right]. destruct (length out =? 0)%nat; [now right|].
    destruct (Z.gtb_spec (lenZ out + (rep + 1) * 8) cap); [now left|]. destruct (Z.gtb_spec (lenZ out + (rep + 1) * 8) cap'); [lia|now right].
Qed.
Lemma qd_loop_cap cap cap' f : cap <= cap' -> forall out bits, qd_loop f cap out bits = Some (PErr (- ENOSPC)) \/ qd_loop f cap out bits = qd_loop f cap' out bits.
Proof.
  intros H. induction f as [|f IH]; intros out bits; [now right|]. cbn [qd_loop].
  destruct (qd_step_cap cap cap' out bits H) as [E|E]; rewrite E; [now left|]. destruct (qd_step cap' out bits) as [[] [o b|c|]]; auto.
Qed.

Lemma firstn_whole (x l : list Z) : firstn (Z.to_nat (lenZ x)) (x ++ l) = x.
Proof. unfold lenZ. rewrite Nat2Z.id, firstn_app, Nat.sub_diag, firstn_O, app_nil_r. apply firstn_all. Qed.
Lemma larger_sw e e' oaddr oaddr' inp out out' olen olen' : is_bytes inp -> is_bytes out -> is_bytes out' ->
  0 <= olen <= lenZ out -> olen <= olen' -> olen' <= lenZ out' -> olen' < 2 ^ 63 ->
  (exists m, sw842_decompress e oaddr inp out olen = Done (- ENOSPC, 0, m)) \/
  observed (sw842_decompress e oaddr inp out olen) = observed (sw842_decompress e' oaddr' inp out' olen').
Proof.
  intros Hi Ho Ho' H1 H2 H3 H4.
  pose proof (sw842_decompress_pure e oaddr inp out olen Hi Ho ltac:(lia) ltac:(lia)) as P.
  pose proof (sw842_decompress_pure e' oaddr' inp out' olen' Hi Ho' ltac:(lia) ltac:(lia)) as P'. unfold pure_run in *.
  destruct (pd_loop_cap olen olen' (S (length (bytes_bits inp))) H2 [] (bytes_bits inp)) as [E|E]; rewrite E in P.
  { left. destruct P as (_ & m & -> & _). eauto. }
  right. destruct (pd_loop _ olen' [] _) as [[x rest|c|]|]; [| | |contradiction].
  - destruct P as (m & -> & _ & _ & ->). destruct P' as (m' & -> & _ & _ & ->).
    destruct (rdb 32 rest) as [[crc b]|]; [|reflexivity]. destruct (negb _); [reflexivity|]. destruct (_ >? _); [reflexivity|].
    cbn [observed]. now rewrite !firstn_whole.
  - destruct P as (_ & m & -> & _). destruct P' as (_ & m' & -> & _). reflexivity.
  - now rewrite P, P'.
Qed.
Lemma larger_opt e e' iaddr oaddr iaddr' oaddr' inp out out' olen olen' : is_bytes inp -> is_bytes out -> is_bytes out' ->
  iaddr mod 8 = 0 -> oaddr mod 8 = 0 -> iaddr' mod 8 = 0 -> oaddr' mod 8 = 0 ->
  0 <= olen <= lenZ out -> olen <= olen' -> olen' <= lenZ out' -> olen' < 2 ^ 63 ->
  (exists m, optsw842_decompress e iaddr oaddr inp out olen = Done (- ENOSPC, 0, m)) \/
  observed (optsw842_decompress e iaddr oaddr inp out olen) = observed (optsw842_decompress e' iaddr' oaddr' inp out' olen').
Proof.
  intros Hi Ho Ho' A1 A2 A3 A4 H1 H2 H3 H4.
  pose proof (optsw842_decompress_pure e iaddr oaddr inp out olen Hi Ho ltac:(lia) ltac:(lia) A1 A2) as P.
  pose proof (optsw842_decompress_pure e' iaddr' oaddr' inp out' olen' Hi Ho' ltac:(lia) ltac:(lia) A3 A4) as P'. unfold qrun in *.
  destruct (qd_loop_cap olen olen' (S (Z.to_nat (8 * lenZ inp))) H2 [] (bytes_bits (whole inp))) as [E|E]; rewrite E in P.
  { left. destruct P as (_ & m & -> & _). eauto. }
  right. destruct (qd_loop _ olen' [] _) as [[x rest|c|]|]; [| |contradiction|contradiction].
  - destruct P as (m & -> & _ & _ & ->). destruct P' as (m' & -> & _ & _ & ->).
    destruct (rdb 32 rest) as [[crc b]|]; [|reflexivity]. destruct (negb _); [reflexivity|].
    cbn [observed]. now rewrite !firstn_whole.
  - destruct P as (_ & m & -> & _). destruct P' as (_ & m' & -> & _). reflexivity.
Qed.

(** ** Enough room: eleven bits denote at most 512 bytes *)
Notation len l := (Z.of_nat (length l)).
Lemma pd_act_enough cap a out bits : act_size_ok a = true -> 11 * lenZ out + 512 * len bits + 88 <= 11 * cap ->
  match pd_act cap a out bits with
  | POk o b => 11 * lenZ o + 512 * len b <= 11 * lenZ out + 512 * len bits
  | PErr c => c <> - ENOSPC
  | PUndef => True
  end.
Proof.
  intros SO H. pose proof (size_cases _ SO) as SZ. destruct a as [n|n]; cbn [pd_act act_len] in *; unfold pd_data, pd_index.
  - destruct (Z.gtb_spec (lenZ out + Z.of_nat n) cap); [lia|]. destruct (rdb _ bits) as [[v r]|] eqn:R; [|discriminate].
    apply rdb_len in R. rewrite lenZ_app. unfold lenZ at 2. rewrite be_bytes_length. lia.
  - destruct (rdb _ bits) as [[i r]|] eqn:R; [|discriminate]. apply rdb_len in R. cbv zeta. destruct (_ >? ptotal _); [discriminate|].
    destruct (Z.gtb_spec (lenZ out + Z.of_nat n) cap); [lia|]. rewrite lenZ_app.
    assert (lenZ (slice (Z.to_nat (poff (length out) n i)) n out) <= 8) by (unfold lenZ, slice; rewrite firstn_length; lia).
    assert (8 <= index_bits n)%nat by (unfold index_bits; destruct n as [|[|[|[|[]]]]]; lia). lia.
Qed.
Lemma pd_acts_enough cap acts : Forall (fun a => act_size_ok a = true) acts -> forall out bits, 11 * lenZ out + 512 * len bits + 88 <= 11 * cap ->
  match pd_acts cap acts out bits with
  | POk o b => 11 * lenZ o + 512 * len b <= 11 * lenZ out + 512 * len bits
  | PErr c => c <> - ENOSPC
  | PUndef => True
  end.
Proof.
  induction 1 as [|a acts SO HS IH]; intros out bits H; cbn [pd_acts]; [lia|].
  pose proof (pd_act_enough cap a out bits SO H) as P. destruct (pd_act cap a out bits) as [o b|c|]; auto.
  specialize (IH o b ltac:(lia)). destruct (pd_acts cap acts o b); auto. lia.
Qed.
Lemma last8_short (out : list Z) : (length (last8 out) <= 8)%nat.
Proof. unfold last8. rewrite skipn_length. lia. Qed.
Lemma pd_step_enough cap out bits : 11 * lenZ out + 512 * len bits <= 11 * cap ->
  match pd_step cap out bits with
  | (_, POk o b) => 11 * lenZ o + 512 * len b <= 11 * lenZ out + 512 * len bits
  | (_, PErr c) => c <> - ENOSPC
  | (_, PUndef) => True
  end.
Proof.
  intros H. unfold pd_step. destruct (rdb 5 bits) as [[op b]|] eqn:R; [|discriminate]. apply rdb_len in R.
  destruct (op =? 0x1b).
  { destruct (rdb 6 b) as [[rep b2]|] eqn:R2; [|discriminate]. destruct (rdb_some' _ _ _ _ R2) as [_ V]. change (2 ^ Z.of_nat 6) with 64 in V. apply rdb_len in R2. destruct (length out =? 0)%nat; [discriminate|].
    destruct (Z.gtb_spec (lenZ out + (rep + 1) * 8) cap); [lia|]. destruct (length out <? 8)%nat; auto.
    rewrite lenZ_app. assert (lenZ (copies (Z.to_nat (rep + 1)) (last8 out)) <= 512); [|lia].
    unfold lenZ. rewrite copies_length. pose proof (last8_short out). nia. }
  destruct (op =? 0x1c).
  { destruct (Z.gtb_spec (lenZ out + 8) cap); [lia|]. rewrite lenZ_app. change (lenZ (List.repeat 0 8)) with 8. lia. }
  destruct (op =? 0x1d).
  { destruct (rdb 3 b) as [[k b2]|] eqn:R2; [|discriminate]. destruct (rdb_some' _ _ _ _ R2) as [_ V]. change (2 ^ Z.of_nat 3) with 8 in V. apply rdb_len in R2. destruct (k =? 0); [discriminate|].
    destruct (Z.gtb_spec (lenZ out + k) cap); [lia|]. destruct (rdb _ b2) as [[v b3]|] eqn:R3; [|discriminate]. apply rdb_len in R3.
    rewrite lenZ_app. unfold lenZ at 2. rewrite be_bytes_length. lia. }
  destruct (op =? 0x1e); [lia|]. destruct (template op) as [acts|] eqn:T; [|discriminate].
  destruct (template_sizes _ _ T) as (TS & _). pose proof (pd_acts_enough cap acts TS out b ltac:(lia)) as P.
  destruct (pd_acts cap acts out b); auto. lia.
Qed.
Lemma pd_loop_enough cap f : forall out bits, 11 * lenZ out + 512 * len bits <= 11 * cap ->
  match pd_loop f cap out bits with Some (PErr c) => c <> - ENOSPC | Some (POk o _) => 11 * lenZ o <= 11 * lenZ out + 512 * len bits | _ => True end.
Proof.
  induction f as [|f IH]; intros out bits H; cbn [pd_loop]; auto. pose proof (pd_step_enough cap out bits H) as P.
  destruct (pd_step cap out bits) as [[] [o b|c|]]; auto; [lia|]. specialize (IH o b ltac:(lia)). destruct (pd_loop f cap o b) as [[]|]; auto. lia.
Qed.
Lemma qd_step_enough cap out bits : 11 * lenZ out + 512 * len bits <= 11 * cap ->
  match qd_step cap out bits with
  | (_, POk o b) => 11 * lenZ o + 512 * len b <= 11 * lenZ out + 512 * len bits
  | (_, PErr c) => c <> - ENOSPC
  | (_, PUndef) => True
  end.
Proof.
  intros H. unfold qd_step. destruct (rdb 5 bits) as [[op b]|] eqn:R; [|discriminate]. apply rdb_len in R.
  destruct (Z.gtb_spec (lenZ out + 8) cap); [lia|]. rewrite andb_false_r.
  destruct (template op) as [acts|] eqn:T.
  { destruct (template_sizes _ _ T) as (TS & _). pose proof (pd_acts_enough cap acts TS out b ltac:(lia)) as P.
    destruct (pd_acts cap acts out b); try discriminate. lia. }
  destruct (op =? 0x1b).
  { destruct (rdb 6 b) as [[rep b2]|] eqn:R2; [|discriminate]. destruct (rdb_some' _ _ _ _ R2) as [_ V]. change (2 ^ Z.of_nat 6) with 64 in V. apply rdb_len in R2. destruct (length out =? 0)%nat; [discriminate|].
    destruct (Z.gtb_spec (lenZ out + (rep + 1) * 8) cap); [lia|].
    rewrite lenZ_app. assert (lenZ (copies (Z.to_nat (rep + 1)) (last8 out)) <= 512); [|lia].
    unfold lenZ. rewrite copies_length. pose proof (last8_short out). nia. }
  destruct (op =? 0x1c). { rewrite lenZ_app. change (lenZ (List.repeat 0 8)) with 8. lia. }
  destruct (op =? 0x1e); [lia|discriminate].
Qed.
Lemma qd_loop_enough cap f : forall out bits, 11 * lenZ out + 512 * len bits <= 11 * cap ->
  match qd_loop f cap out bits with Some (PErr c) => c <> - ENOSPC | _ => True end.
Proof.
  induction f as [|f IH]; intros out bits H; cbn [qd_loop]; auto. pose proof (qd_step_enough cap out bits H) as P.
  destruct (qd_step cap out bits) as [[] [o b|c|]]; auto. apply IH. lia.
Qed.
Lemma enough_sw e oaddr inp out olen n m : is_bytes inp -> is_bytes out -> 4096 * lenZ inp <= 11 * olen -> olen <= lenZ out -> olen < 2 ^ 63 -> 4096 * lenZ inp <= 11 * UINT_MAX ->
  sw842_decompress e oaddr inp out olen <> Done (- ENOSPC, n, m).
Proof.
  intros Hi Ho H1 H2 H3 H4 E. pose proof (lenZ_nonneg inp). pose proof (sw842_decompress_pure e oaddr inp out olen Hi Ho ltac:(lia) H3) as P. unfold pure_run in P.
  assert (LB : len (bytes_bits inp) = 8 * lenZ inp) by (rewrite bytes_bits_length; unfold lenZ; lia).
  pose proof (pd_loop_enough olen (S (length (bytes_bits inp))) [] (bytes_bits inp) ltac:(rewrite LB, (@lenZ_nil Z); lia)) as Q. rewrite LB, (@lenZ_nil Z) in Q.
  destruct (pd_loop _ olen [] _) as [[x rest|c|]|]; [| | |contradiction].
  - destruct P as (m' & _ & _ & _ & P). rewrite P in E. destruct (rdb 32 rest) as [[crc b]|]; [|discriminate]. destruct (negb _); [discriminate|].
    destruct (Z.gtb_spec (lenZ x) UINT_MAX); [lia|discriminate].
  - destruct P as (_ & m' & P & _). rewrite P in E. injection E as E _ _. contradiction.
  - rewrite P in E. discriminate.
Qed.
Lemma enough_opt e iaddr oaddr inp out olen n m : is_bytes inp -> is_bytes out -> 4096 * lenZ inp <= 11 * olen -> olen <= lenZ out -> olen < 2 ^ 63 ->
  iaddr mod 8 = 0 -> oaddr mod 8 = 0 ->
  optsw842_decompress e iaddr oaddr inp out olen <> Done (- ENOSPC, n, m).
Proof.
  intros Hi Ho H1 H2 H3 A1 A2 E. pose proof (lenZ_nonneg inp). pose proof (optsw842_decompress_pure e iaddr oaddr inp out olen Hi Ho ltac:(lia) H3 A1 A2) as P. unfold qrun in P.
  assert (LB : len (bytes_bits (whole inp)) <= 8 * lenZ inp).
  { rewrite bytes_bits_length, whole_length. pose proof (Nat.mul_div_le (length inp) 8 ltac:(lia)). unfold lenZ. lia. }
  pose proof (qd_loop_enough olen (S (Z.to_nat (8 * lenZ inp))) [] (bytes_bits (whole inp)) ltac:(rewrite (@lenZ_nil Z); lia)) as Q.
  destruct (qd_loop _ olen [] _) as [[x rest|c|]|]; [| |contradiction|contradiction].
  - destruct P as (m' & _ & _ & _ & P). rewrite P in E. destruct (rdb 32 rest) as [[crc b]|]; [|discriminate]. destruct (negb _); discriminate.
  - destruct P as (_ & m' & P & _). rewrite P in E. injection E as E _ _. contradiction.
Qed.
