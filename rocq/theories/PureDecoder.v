(** A pure decoder over bit strings, and its agreement with the format relation
    of Spec842.  The models of the decoders are shown to refine this function. *)
From Coq Require Import ZArith List Bool Lia.
From Verif Require Import SpecBits SpecCrc Spec842 CBase BitsLemmas CrcProofs SerialIdeal SerialValid.
Import ListNotations.
Open Scope Z_scope.

(** * Definitions *)
Definition rdb (n : nat) (bits : list bool) : option (Z * list bool) :=
  if (n <=? length bits)%nat then Some (val (firstn n bits), skipn n bits) else None.

(** Position denoted by index [i] of [n]-byte items when [written] bytes exist. *)
Definition ptotal (written : nat) : Z := 8 * (Z.of_nat written / 8).
Definition poff (written n : nat) (i : Z) : Z :=
  let total := ptotal written in
  let w := window n in
  let off := i * Z.of_nat n in
  if total >? w then
    let sec := total / w * w in
    if off >=? total - sec then off + (sec - w) else off + sec
  else off.

Inductive pres := POk (out : list Z) (bits : list bool) | PErr (code : Z) | PUndef.

Definition pd_data (cap : Z) (n : nat) (out : list Z) (bits : list bool) : pres :=
  if lenZ out + Z.of_nat n >? cap then PErr (- ENOSPC)
  else match rdb (8 * n) bits with
       | None => PErr (- EOVERFLOW)
       | Some (v, rest) => POk (out ++ be_bytes n v) rest
       end.
Definition pd_index (cap : Z) (n : nat) (out : list Z) (bits : list bool) : pres :=
  match rdb (index_bits n) bits with
  | None => PErr (- EOVERFLOW)
  | Some (i, rest) =>
    let off := poff (length out) n i in
    if off + Z.of_nat n >? ptotal (length out) then PErr (- EINVAL)
    else if lenZ out + Z.of_nat n >? cap then PErr (- ENOSPC)
    else POk (out ++ slice (Z.to_nat off) n out) rest
  end.
Definition pd_act (cap : Z) (a : action) (out : list Z) (bits : list bool) : pres :=
  match a with D n => pd_data cap n out bits | I n => pd_index cap n out bits end.
Fixpoint pd_acts (cap : Z) (acts : list action) (out : list Z) (bits : list bool) : pres :=
  match acts with
  | [] => POk out bits
  | a :: r => match pd_act cap a out bits with POk o b => pd_acts cap r o b | x => x end
  end.

(** One template; the flag says "end template". *)
Definition pd_step (cap : Z) (out : list Z) (bits : list bool) : bool * pres :=
  match rdb 5 bits with
  | None => (false, PErr (- EOVERFLOW))
  | Some (op, b1) =>
    if op =? 0x1b then
      (false, match rdb 6 b1 with
      | None => PErr (- EOVERFLOW)
      | Some (rep, b2) =>
        if (length out =? 0)%nat then PErr (- EINVAL)
        else if lenZ out + (rep + 1) * 8 >? cap then PErr (- ENOSPC)
        else if (length out <? 8)%nat then PUndef
        else POk (out ++ copies (Z.to_nat (rep + 1)) (last8 out)) b2
      end)
    else if op =? 0x1c then
      (false, if lenZ out + 8 >? cap then PErr (- ENOSPC) else POk (out ++ List.repeat 0 8) b1)
    else if op =? 0x1d then
      (false, match rdb 3 b1 with
      | None => PErr (- EOVERFLOW)
      | Some (k, b2) =>
        if k =? 0 then PErr (- EINVAL)
        else if lenZ out + k >? cap then PErr (- ENOSPC)
        else match rdb (8 * Z.to_nat k) b2 with
             | None => PErr (- EOVERFLOW)
             | Some (v, b3) => POk (out ++ be_bytes (Z.to_nat k) v) b3
             end
      end)
    else if op =? 0x1e then (true, POk out b1)
    else match template op with
         | None => (false, PErr (- EINVAL))
         | Some acts => (false, pd_acts cap acts out b1)
         end
  end.

Fixpoint pd_loop (fuel : nat) (cap : Z) (out : list Z) (bits : list bool) : option pres :=
  match fuel with
  | O => None
  | S f =>
    match pd_step cap out bits with
    | (true, r) => Some r
    | (false, POk o b) => pd_loop f cap o b
    | (false, r) => Some r
    end
  end.

(** * Reading bits *)
Lemma rdb_some n bits v rest : rdb n bits = Some (v, rest) ->
  bits = bits_of n v ++ rest /\ 0 <= v < 2 ^ Z.of_nat n.
Proof.
  unfold rdb. destruct (Nat.leb_spec n (length bits)); [|discriminate]. intros E. injection E as <- <-.
  assert (L : length (firstn n bits) = n) by (rewrite firstn_length; lia).
  split.
  - rewrite <- L at 1. rewrite bits_of_val. now rewrite firstn_skipn.
  - pose proof (val_bound (firstn n bits)) as V. now rewrite L in V.
Qed.
Lemma rdb_app n v rest : 0 <= v < 2 ^ Z.of_nat n -> rdb n (bits_of n v ++ rest) = Some (v, rest).
Proof.
  intros. unfold rdb. rewrite app_length, bits_of_length. destruct (Nat.leb_spec n (n + length rest)); [|lia].
  rewrite firstn_app_exact, skipn_app_exact by now rewrite bits_of_length. rewrite val_bits_of, Z.mod_small by lia. reflexivity.
Qed.
Lemma rdb_short n bits : (length bits < n)%nat -> rdb n bits = None.
Proof. intros. unfold rdb. destruct (Nat.leb_spec n (length bits)); [lia|reflexivity]. Qed.
Lemma rdb_len n bits v rest : rdb n bits = Some (v, rest) -> length bits = (n + length rest)%nat.
Proof. intros H. apply rdb_some in H. destruct H as [-> _]. now rewrite app_length, bits_of_length. Qed.
(** Reading a byte string. *)
Lemma bits_be_bytes n v : bytes_bits (be_bytes n v) = bits_of (8 * n) v.
Proof. apply bytes_bits_be_bytes. Qed.
Lemma bytes_as_bits d : is_bytes d -> bytes_bits d = bits_of (8 * length d) (be_val d) /\ 0 <= be_val d < 2 ^ Z.of_nat (8 * length d).
Proof.
  intros H. split. { symmetry. now apply bits_of_be_val. }
  pose proof (be_val_bound d H) as B. unfold lenZ in B. rewrite Nat2Z.inj_mul. exact B.
Qed.

(** * Index positions *)
Lemma window_pos n : (n = 2 \/ n = 4 \/ n = 8)%nat -> window n = Z.of_nat n * 2 ^ Z.of_nat (index_bits n) /\ 0 < window n.
Proof. intros [->|[->| ->]]; split; reflexivity. Qed.

Lemma refers_unique written n i p p' : (n = 2 \/ n = 4 \/ n = 8)%nat ->
  refers written n i p -> refers written n i p' -> p = p'.
Proof.
  intros Hn [M1 [A1 B1]] [M2 [A2 B2]]. pose proof (window_pos n Hn) as [_ W].
  set (w := window n) in *. set (t := 8 * (Z.of_nat written / 8)) in *.
  pose proof (Z.div_mod (Z.of_nat p) w ltac:(lia)). pose proof (Z.div_mod (Z.of_nat p') w ltac:(lia)).
  assert (D : Z.of_nat p - Z.of_nat p' = w * (Z.of_nat p / w - Z.of_nat p' / w)) by lia.
  assert (- w < Z.of_nat p - Z.of_nat p' < w) by lia.
  assert (Z.of_nat p / w - Z.of_nat p' / w = 0) by nia. nia.
Qed.

Lemma poff_spec written n i : (n = 2 \/ n = 4 \/ n = 8)%nat -> 0 <= i < 2 ^ Z.of_nat (index_bits n) ->
  0 <= poff written n i /\ poff written n i <= ptotal written + window n /\
  (poff written n i + Z.of_nat n <= ptotal written -> refers written n i (Z.to_nat (poff written n i))) /\
  (forall p, refers written n i p -> poff written n i = Z.of_nat p).
Proof.
  intros Hn Hi. pose proof (window_pos n Hn) as [WE W].
  assert (T0 : 0 <= ptotal written) by (unfold ptotal; pose proof (Z.div_pos (Z.of_nat written) 8 ltac:(lia) ltac:(lia)); lia).
  assert (NP : 2 <= Z.of_nat n) by lia.
  assert (OFF : 0 <= i * Z.of_nat n /\ i * Z.of_nat n + Z.of_nat n <= window n) by (rewrite WE; nia).
  assert (G : 0 <= poff written n i /\ poff written n i <= ptotal written + window n /\
    (poff written n i + Z.of_nat n <= ptotal written -> refers written n i (Z.to_nat (poff written n i))) /\
    (window n < ptotal written -> poff written n i + Z.of_nat n <= ptotal written) /\
    (ptotal written <= window n -> poff written n i = i * Z.of_nat n)).
  { unfold poff, refers. fold (ptotal written).
    assert (TM : ptotal written mod Z.of_nat n = 0).
    { unfold ptotal. destruct Hn as [->|[->| ->]].
      - replace (8 * (Z.of_nat written / 8)) with (4 * (Z.of_nat written / 8) * 2) by lia. apply Z.mod_mul. lia.
      - replace (8 * (Z.of_nat written / 8)) with (2 * (Z.of_nat written / 8) * 4) by lia. apply Z.mod_mul. lia.
      - rewrite Z.mul_comm. apply Z.mod_mul. lia. }
    set (t := ptotal written) in *. set (w := window n) in *. set (off := i * Z.of_nat n) in *.
    pose proof (Z.div_mod t w ltac:(lia)) as DM. pose proof (Z.mod_pos_bound t w ltac:(lia)) as MB.
    rewrite Z.gtb_ltb. destruct (Z.ltb_spec w t) as [TW|TW].
    - assert (SEC : w <= t / w * w). { assert (1 <= t / w) by (apply Z.div_le_lower_bound; lia). nia. }
      assert (PM : (t - t / w * w) mod Z.of_nat n = 0).
      { replace (t - t / w * w) with (t + (- (t / w) * 2 ^ Z.of_nat (index_bits n)) * Z.of_nat n) by (rewrite WE; ring).
        now rewrite Z.mod_add by lia. }
      rewrite Z.geb_leb. destruct (Z.leb_spec (t - t / w * w) off) as [GE|LT].
      + split; [lia|]. split; [lia|]. split; [|split; [lia|lia]].
        intros _. rewrite Z2Nat.id by lia. split; [|lia].
        replace (off + (t / w * w - w)) with (off + (t / w - 1) * w) by ring. rewrite Z.mod_add by lia. apply Z.mod_small. lia.
      + assert (K : off + Z.of_nat n <= t - t / w * w).
        { pose proof (Z.div_mod (t - t / w * w) (Z.of_nat n) ltac:(lia)) as DP. rewrite PM in DP.
          unfold off in *. nia. }
        split; [lia|]. split; [lia|]. split; [|split; lia].
        intros _. rewrite Z2Nat.id by lia. split; [|lia].
        rewrite Z.mod_add by lia. apply Z.mod_small. lia.
    - split; [lia|]. split; [lia|]. split; [|split; [lia|auto]].
      intros H. rewrite Z2Nat.id by lia. split; [|lia]. apply Z.mod_small. lia. }
  destruct G as (G1 & G2 & G3 & G4 & G5). split; auto. split; auto. split; auto.
  intros p Hp. destruct (Z_lt_ge_dec (window n) (ptotal written)) as [LT|GE].
  - specialize (G3 (G4 LT)). pose proof (refers_unique _ _ _ _ _ Hn Hp G3). lia.
  - rewrite G5 by lia. destruct Hp as [M [A B]]. fold (ptotal written) in A, B.
    rewrite <- M. apply Z.mod_small. lia.
Qed.

(** * Soundness of the pure decoder *)
Lemma template_sizes op acts : template op = Some acts -> Forall (fun a => act_size_ok a = true) acts /\ acts_len acts = 8%nat /\ 0 <= op < 0x1a.
Proof.
  intros H.
  destruct op as [|p|p]; cbn in H; try discriminate.
  - injection H as <-. repeat split; try lia. repeat constructor.
  - repeat (destruct p as [p|p|]; cbn in H; try discriminate H);
      injection H as <-; repeat split; try lia; repeat constructor.
Qed.
Lemma size_cases a : act_size_ok a = true -> (act_len a = 2 \/ act_len a = 4 \/ act_len a = 8)%nat.
Proof. destruct a; cbn; rewrite !orb_true_iff, !Nat.eqb_eq; tauto. Qed.

Lemma pd_act_sound cap a out bits out' bits' : act_size_ok a = true -> pd_act cap a out bits = POk out' bits' ->
  (forall acts x rest, args out' acts bits' x rest -> args out (a :: acts) bits x rest) /\
  (is_bytes out -> is_bytes out') /\ length out' = (length out + act_len a)%nat /\ lenZ out' <= cap.
Proof.
  intros Ha. apply size_cases in Ha. destruct a as [n|n]; cbn [pd_act act_len] in *.
  - unfold pd_data. destruct (lenZ out + Z.of_nat n >? cap) eqn:C; [discriminate|].
    destruct (rdb (8 * n) bits) as [[v rest]|] eqn:R; [|discriminate]. intros E. injection E as <- <-.
    apply rdb_some in R. destruct R as [-> V]. split; [|split; [|split]].
    + intros acts x rest' HA. rewrite <- bits_be_bytes. apply args_data; auto using be_bytes_is_bytes, be_bytes_length.
    + intros. apply is_bytes_app. auto using be_bytes_is_bytes.
    + now rewrite app_length, be_bytes_length.
    + rewrite lenZ_app. unfold lenZ at 2. rewrite be_bytes_length. rewrite Z.gtb_ltb in C. apply Z.ltb_ge in C. lia.
  - unfold pd_index. destruct (rdb (index_bits n) bits) as [[i rest]|] eqn:R; [|discriminate].
    destruct (poff (length out) n i + Z.of_nat n >? ptotal (length out)) eqn:P; [discriminate|].
    destruct (lenZ out + Z.of_nat n >? cap) eqn:C; [discriminate|]. intros E. injection E as <- <-.
    apply rdb_some in R. destruct R as [-> V]. rewrite Z.gtb_ltb in *. apply Z.ltb_ge in P. apply Z.ltb_ge in C.
    destruct (poff_spec (length out) n i Ha V) as (P0 & _ & PR & _). specialize (PR P).
    assert (TL : ptotal (length out) <= lenZ out).
    { unfold ptotal, lenZ. pose proof (Z.mul_div_le (Z.of_nat (length out)) 8 ltac:(lia)). lia. }
    assert (SL : length (slice (Z.to_nat (poff (length out) n i)) n out) = n).
    { apply slice_length. unfold lenZ in TL. lia. }
    split; [|split; [|split]].
    + intros acts x rest' HA. eapply args_index; eauto.
    + intros. apply is_bytes_app. auto using is_bytes_slice.
    + rewrite app_length. lia.
    + rewrite lenZ_app. unfold lenZ at 2. rewrite SL. lia.
Qed.

Lemma pd_acts_sound cap acts : Forall (fun a => act_size_ok a = true) acts -> forall out bits out' bits',
  pd_acts cap acts out bits = POk out' bits' ->
  args out acts bits out' bits' /\ (is_bytes out -> is_bytes out') /\
  (length out' = length out + acts_len acts)%nat /\ (lenZ out <= cap -> lenZ out' <= cap).
Proof.
  induction 1 as [|a acts Ha HA IH]; intros out bits out' bits' H; cbn [pd_acts] in H.
  - injection H as <- <-. split; [constructor|]. cbn. repeat split; auto.
  - destruct (pd_act cap a out bits) as [o b| |] eqn:E; try discriminate.
    destruct (pd_act_sound cap a out bits o b Ha E) as (S1 & S2 & S3 & S4).
    destruct (IH _ _ _ _ H) as (T1 & T2 & T3 & T4).
    split; auto. split; auto. split; auto. cbn [acts_len fold_right]. fold (acts_len acts). lia.
Qed.

Lemma pd_step_sound cap out bits out' bits' fin : pd_step cap out bits = (fin, POk out' bits') ->
  (if fin then forall sw, stream sw out bits out' bits'
   else forall x rest, stream true out' bits' x rest -> stream true out bits x rest) /\
  (is_bytes out -> is_bytes out') /\ (lenZ out <= cap -> lenZ out' <= cap) /\
  (length bits' + 5 <= length bits)%nat /\ (length out <= length out')%nat.
Proof.
  unfold pd_step. destruct (rdb 5 bits) as [[op b1]|] eqn:R; [|discriminate].
  pose proof (rdb_len _ _ _ _ R) as L1. apply rdb_some in R. destruct R as [-> OP].
  destruct (Z.eqb_spec op 0x1b) as [->|N1].
  { destruct (rdb 6 b1) as [[rep b2]|] eqn:R2; [|discriminate].
    pose proof (rdb_len _ _ _ _ R2) as L2. apply rdb_some in R2. destruct R2 as [-> RP].
    destruct (Nat.eqb_spec (length out) 0); [discriminate|].
    destruct (lenZ out + (rep + 1) * 8 >? cap) eqn:C; [discriminate|].
    destruct (Nat.ltb_spec (length out) 8); [discriminate|]. intros E. injection E as <- <- <-.
    assert (LC : length (copies (Z.to_nat (rep + 1)) (last8 out)) = (Z.to_nat (rep + 1) * 8)%nat)
      by (rewrite copies_length, last8_length; auto).
    split; [|split; [|split; [|split]]].
    - intros x rest HS. apply st_repeat; [exact RP|auto|].
      replace (Z.to_nat rep + 1)%nat with (Z.to_nat (rep + 1)) by lia. exact HS.
    - intros. apply is_bytes_app. split; auto. apply is_bytes_copies. unfold last8. now apply is_bytes_skipn.
    - intros. rewrite lenZ_app. unfold lenZ at 2. rewrite LC. rewrite Z.gtb_ltb in C. apply Z.ltb_ge in C. lia.
    - lia.
    - rewrite app_length. lia. }
  destruct (Z.eqb_spec op 0x1c) as [->|N2].
  { destruct (lenZ out + 8 >? cap) eqn:C; [discriminate|].
    assert (Z8 : length (List.repeat 0 8) = 8%nat /\ is_bytes (List.repeat 0 8) /\
      forall x rest, stream true (out ++ List.repeat 0 8) b1 x rest -> stream true out (bits_of 5 0x1c ++ b1) x rest).
    { split; auto. split. { apply is_bytes_repeat. unfold is_byte; lia. } intros. now apply st_zeros. }
    generalize dependent (List.repeat 0 8). intros z8 (ZL & ZB & ZS) E. injection E as <- <- <-.
    split; [|split; [|split; [|split]]].
    - exact ZS.
    - intros. apply is_bytes_app. auto.
    - intros. rewrite lenZ_app. unfold lenZ at 2. rewrite ZL. rewrite Z.gtb_ltb in C. apply Z.ltb_ge in C. lia.
    - lia.
    - rewrite app_length. lia. }
  destruct (Z.eqb_spec op 0x1d) as [->|N3].
  { destruct (rdb 3 b1) as [[k b2]|] eqn:R2; [|discriminate].
    pose proof (rdb_len _ _ _ _ R2) as L2. apply rdb_some in R2. destruct R2 as [-> K].
    destruct (Z.eqb_spec k 0); [discriminate|].
    destruct (lenZ out + k >? cap) eqn:C; [discriminate|].
    destruct (rdb (8 * Z.to_nat k) b2) as [[v b3]|] eqn:R3; [|discriminate].
    pose proof (rdb_len _ _ _ _ R3) as L3. apply rdb_some in R3. destruct R3 as [-> V].
    intros E. injection E as <- <- <-. change (2 ^ Z.of_nat 3) with 8 in K.
    split; [|split; [|split; [|split]]].
    - intros x rest HS. rewrite <- bits_be_bytes.
      replace k with (Z.of_nat (length (be_bytes (Z.to_nat k) v))) at 1 by (rewrite be_bytes_length; lia).
      apply st_short; auto using be_bytes_is_bytes. rewrite be_bytes_length. lia.
    - intros. apply is_bytes_app. auto using be_bytes_is_bytes.
    - intros. rewrite lenZ_app. unfold lenZ at 2. rewrite be_bytes_length. rewrite Z.gtb_ltb in C. apply Z.ltb_ge in C. lia.
    - lia.
    - rewrite app_length. lia. }
  destruct (Z.eqb_spec op 0x1e) as [->|N4].
  { intros E. injection E as <- <- <-. split; [|repeat split; auto; lia]. intros. apply st_end. }
  destruct (template op) as [acts|] eqn:T; [|discriminate]. intros E. injection E as <- E.
  destruct (template_sizes _ _ T) as (TS & TL & TR).
  destruct (pd_acts_sound cap acts TS _ _ _ _ E) as (S1 & S2 & S3 & S4).
  split; [|split; [|split; [|split]]]; auto.
  - intros x rest HS. eapply st_template; eauto.
  - assert (AL : forall acts o b o' b', args o acts b o' b' -> (length b' <= length b)%nat).
    { clear. induction 1; auto; rewrite app_length; lia. }
    apply AL in S1. lia.
  - lia.
Qed.

Lemma pd_loop_sound fuel cap : forall out bits x rest, is_bytes out -> lenZ out <= cap ->
  pd_loop fuel cap out bits = Some (POk x rest) -> stream true out bits x rest /\ is_bytes x /\ lenZ x <= cap.
Proof.
  induction fuel as [|f IH]; intros out bits x rest Ho Hc H; [discriminate|]. cbn [pd_loop] in H.
  destruct (pd_step cap out bits) as [[] r] eqn:E.
  - injection H as ->. destruct (pd_step_sound _ _ _ _ _ _ E) as (S1 & S2 & S3 & _). auto.
  - destruct r as [o b| |]; try discriminate.
    destruct (pd_step_sound _ _ _ _ _ _ E) as (S1 & S2 & S3 & _).
    destruct (IH o b x rest) as (T1 & T2 & T3); auto.
Qed.

(** Enough fuel: every template takes at least five bits. *)
Lemma pd_loop_fuel fuel cap : forall out bits, (length bits < fuel)%nat -> pd_loop fuel cap out bits <> None.
Proof.
  induction fuel as [|f IH]; intros out bits Hf; [lia|]. cbn [pd_loop].
  destruct (pd_step cap out bits) as [[] r] eqn:E; [discriminate|].
  destruct r as [o b| |]; try discriminate.
  apply IH. destruct (pd_step_sound _ _ _ _ _ _ E) as (_ & _ & _ & S4 & _). lia.
Qed.
Lemma pd_loop_more fuel cap : forall out bits r fuel', pd_loop fuel cap out bits = Some r -> (fuel <= fuel')%nat ->
  pd_loop fuel' cap out bits = Some r.
Proof.
  induction fuel as [|f IH]; intros out bits r fuel' H HL; [discriminate|]. destruct fuel' as [|f']; [lia|].
  cbn [pd_loop] in *. destruct (pd_step cap out bits) as [[] x]; auto. destruct x; auto. apply IH; auto. lia.
Qed.

(** * Completeness *)
Lemma args_len out acts bits x rest : args out acts bits x rest ->
  Forall (fun a => act_size_ok a = true) acts -> (length x = length out + acts_len acts)%nat.
Proof.
  induction 1; intros F; inversion F as [|? ? Fa F']; subst.
  - cbn; lia.
  - rewrite IHargs by auto. rewrite app_length. cbn [acts_len fold_right act_len]. fold (acts_len acts). lia.
  - apply size_cases in Fa. cbn [act_len] in Fa.
    rewrite IHargs by auto. rewrite app_length, slice_length. cbn [acts_len fold_right act_len]. fold (acts_len acts). lia.
    destruct H0 as (_ & A & _). pose proof (Z.mul_div_le (Z.of_nat (length out)) 8 ltac:(lia)). lia.
Qed.

(** The consumed prefix [c], independent of what follows. *)
Lemma args_prefix out acts bits x rest : args out acts bits x rest ->
  exists c, bits = c ++ rest /\ forall rest', args out acts (c ++ rest') x rest'.
Proof.
  induction 1.
  - exists []. split; auto. intros. constructor.
  - destruct IHargs as (c & -> & P). exists (bytes_bits d ++ c). split; [now rewrite app_assoc|].
    intros. rewrite <- app_assoc. now apply args_data.
  - destruct IHargs as (c & -> & P). exists (bits_of (index_bits n) i ++ c). split; [now rewrite app_assoc|].
    intros. rewrite <- app_assoc. eapply args_index; eauto.
Qed.
Lemma stream_prefix sw out bits x rest : stream sw out bits x rest ->
  exists c, bits = c ++ rest /\ forall rest', stream sw out (c ++ rest') x rest'.
Proof.
  induction 1.
  - exists (bits_of 5 0x1e). split; auto. intros. constructor.
  - destruct IHstream as (c & -> & P). exists (bits_of 5 0x1c ++ c). split; [now rewrite app_assoc|].
    intros. rewrite <- app_assoc. now apply st_zeros.
  - destruct IHstream as (c & -> & P). exists (bits_of 5 0x1b ++ bits_of 6 n ++ c). split; [now rewrite <- !app_assoc|].
    intros. rewrite <- !app_assoc. now apply st_repeat.
  - destruct IHstream as (c & -> & P). exists (bits_of 5 0x1d ++ bits_of 3 (Z.of_nat (length d)) ++ bytes_bits d ++ c).
    split; [now rewrite <- !app_assoc|]. intros. rewrite <- !app_assoc. now apply st_short.
  - destruct IHstream as (c & -> & P). destruct (args_prefix _ _ _ _ _ H1) as (c1 & -> & P1).
    exists (bits_of 5 op ++ c1 ++ c). split; [now rewrite <- !app_assoc|].
    intros. rewrite <- !app_assoc. eapply st_template; eauto.
Qed.

Lemma stream_grows sw out bits x rest : stream sw out bits x rest -> (length out <= length x)%nat.
Proof.
  induction 1; rewrite ?app_length in *; try lia.
  destruct (template_sizes _ _ H0) as (S & _ & _). pose proof (args_len _ _ _ _ _ H1 S). lia.
Qed.

(** [pre bs c]: [bs] is a strict prefix of [c]. *)
Definition cut (bs c : list bool) : Prop := exists y, y <> [] /\ c = bs ++ y.
Lemma cut_cases bs a c : cut bs (a ++ c) -> cut bs a \/ exists bs', bs = a ++ bs' /\ cut bs' c.
Proof.
  intros (y & Hy & E). destruct (Nat.lt_ge_cases (length bs) (length a)) as [L|L].
  - left. exists (skipn (length bs) a).
    apply (f_equal (firstn (length bs))) in E. rewrite (firstn_app_exact bs) in E by auto.
    rewrite firstn_app in E. replace (length bs - length a)%nat with 0%nat in E by lia.
    rewrite firstn_O, app_nil_r in E. split.
    + intros E0. apply (f_equal (@length bool)) in E0. rewrite skipn_length in E0. cbn in E0. lia.
    + rewrite <- E at 1. now rewrite firstn_skipn.
  - right.
    assert (EA : a = firstn (length a) bs).
    { apply (f_equal (firstn (length a))) in E. rewrite firstn_app_exact in E by auto.
      rewrite firstn_app in E. replace (length a - length bs)%nat with 0%nat in E by lia.
      rewrite firstn_O, app_nil_r in E. exact E. }
    exists (skipn (length a) bs). split.
    + rewrite EA at 1. now rewrite firstn_skipn.
    + exists y. split; auto. apply (f_equal (skipn (length a))) in E. rewrite skipn_app_exact in E by auto.
      rewrite skipn_app in E. replace (length a - length bs)%nat with 0%nat in E by lia. exact E.
Qed.
Lemma cut_short n v bs : cut bs (bits_of n v) -> rdb n bs = None.
Proof.
  intros (y & Hy & E). apply rdb_short. apply (f_equal (@length bool)) in E.
  rewrite bits_of_length, app_length in E. destruct y; [congruence|]. cbn in E. lia.
Qed.
Lemma cut_nil bs : ~ cut bs [].
Proof. intros (y & Hy & E). symmetry in E. apply app_eq_nil in E. tauto. Qed.

(** Behaviour on the arguments of a template: succeed, run out of space, or (cut
    short) run out of input. *)
Lemma pd_acts_complete cap out acts bits x rest : args out acts bits x rest ->
  Forall (fun a => act_size_ok a = true) acts ->
  (lenZ x <= cap -> pd_acts cap acts out bits = POk x rest) /\
  (lenZ out <= cap < lenZ x -> pd_acts cap acts out bits = PErr (- ENOSPC)).
Proof.
  induction 1; intros F; inversion F as [|? ? Fa F']; subst; cbn [pd_acts].
  - split; auto. lia.
  - pose proof (args_len _ _ _ _ _ H1 F') as L. rewrite app_length in L.
    destruct (IHargs F') as [I1 I2]. rewrite lenZ_app in I2. unfold pd_act, pd_data.
    destruct (bytes_as_bits d H0) as [-> V].
    rewrite Z.gtb_ltb. destruct (Z.ltb_spec cap (lenZ out + Z.of_nat (length d))) as [C|C].
    + split; intros; auto. unfold lenZ in *. lia.
    + rewrite rdb_app by auto. rewrite be_bytes_be_val by auto. split; intros; [auto|]. apply I2. unfold lenZ in *. lia.
  - pose proof (args_len _ _ _ _ _ H1 F') as L. rewrite app_length in L.
    destruct (IHargs F') as [I1 I2]. rewrite lenZ_app in I2. unfold pd_act, pd_index.
    apply size_cases in Fa. cbn [act_len] in Fa.
    rewrite rdb_app by auto. destruct (poff_spec (length out) n i Fa H) as (_ & _ & _ & PU). rewrite (PU p H0).
    destruct H0 as (_ & A & B). fold (ptotal (length out)) in A.
    assert (SL : length (slice p n out) = n).
    { apply slice_length. unfold ptotal in A. pose proof (Z.mul_div_le (Z.of_nat (length out)) 8 ltac:(lia)). lia. }
    rewrite Z.gtb_ltb. destruct (Z.ltb_spec (ptotal (length out)) (Z.of_nat p + Z.of_nat n)); [lia|].
    rewrite Z.gtb_ltb. rewrite Nat2Z.id.
    destruct (Z.ltb_spec cap (lenZ out + Z.of_nat n)) as [C|C].
    + split; intros; auto. unfold lenZ in *. lia.
    + split; intros; [auto|]. apply I2. unfold lenZ in *. lia.
Qed.
Lemma pd_acts_cut cap acts : forall out c x, (forall rest, args out acts (c ++ rest) x rest) ->
  Forall (fun a => act_size_ok a = true) acts -> lenZ x <= cap -> forall bs, cut bs c ->
  pd_acts cap acts out bs = PErr (- EOVERFLOW).
Proof.
  induction acts as [|a acts IH]; intros out c x HA F Hx bs Hcut.
  - specialize (HA []). inversion HA. destruct c; [now apply cut_nil in Hcut|].
    rewrite app_nil_r in *. congruence.
  - inversion F as [|? ? Fa F']; subst. cbn [pd_acts].
    pose proof (HA []) as HA0. rewrite app_nil_r in HA0.
    inversion HA0 as [|o n d acts' bs0 x' r0 Ld Bd HA1|o n i p acts' bs0 x' r0 Hi Hr HA1]; subst.
    + pose proof (args_len _ _ _ _ _ HA1 F') as L. rewrite app_length in L.
      destruct (args_prefix _ _ _ _ _ HA1) as (c1 & E1 & P1). rewrite app_nil_r in E1. subst bs0.
      unfold pd_act, pd_data. destruct (bytes_as_bits d Bd) as [EB V]. rewrite EB in Hcut.
      rewrite Z.gtb_ltb. destruct (Z.ltb_spec cap (lenZ out + Z.of_nat (length d))); [unfold lenZ in *; lia|].
      apply cut_cases in Hcut. destruct Hcut as [Hs|(bs' & -> & Hc)].
      * now rewrite (cut_short _ _ _ Hs).
      * rewrite rdb_app by auto. rewrite be_bytes_be_val by auto. eapply IH; eauto.
    + pose proof (args_len _ _ _ _ _ HA1 F') as L. rewrite app_length in L.
      destruct (args_prefix _ _ _ _ _ HA1) as (c1 & E1 & P1). rewrite app_nil_r in E1. subst bs0.
      unfold pd_act, pd_index. apply size_cases in Fa. cbn [act_len] in Fa.
      apply cut_cases in Hcut. destruct Hcut as [Hs|(bs' & -> & Hc)].
      * now rewrite (cut_short _ _ _ Hs).
      * rewrite rdb_app by auto. destruct (poff_spec (length out) n i Fa Hi) as (_ & _ & _ & PU). rewrite (PU p Hr).
        destruct Hr as (_ & A & B). fold (ptotal (length out)) in A.
        assert (SL : length (slice p n out) = n).
        { apply slice_length. unfold ptotal in A. pose proof (Z.mul_div_le (Z.of_nat (length out)) 8 ltac:(lia)). lia. }
        rewrite Z.gtb_ltb. destruct (Z.ltb_spec (ptotal (length out)) (Z.of_nat p + Z.of_nat n)); [lia|].
        rewrite Z.gtb_ltb. rewrite Nat2Z.id.
        destruct (Z.ltb_spec cap (lenZ out + Z.of_nat n)); [unfold lenZ in *; lia|]. eapply IH; eauto.
Qed.

Lemma template_op_range op acts : template op = Some acts -> (op =? 0x1b) = false /\ (op =? 0x1c) = false /\ (op =? 0x1d) = false /\ (op =? 0x1e) = false.
Proof. intros T. destruct (template_sizes _ _ T) as (_ & _ & R). repeat split; apply Z.eqb_neq; lia. Qed.

Lemma stream_complete cap sw out bits x rest : stream sw out bits x rest ->
  (lenZ x <= cap -> exists f, pd_loop f cap out bits = Some (POk x rest)) /\
  (lenZ out <= cap < lenZ x -> exists f, pd_loop f cap out bits = Some (PErr (- ENOSPC))).
Proof.
  induction 1.
  - split; [|lia]. intros _. exists 1%nat. cbn [pd_loop]. unfold pd_step. now rewrite rdb_app by (cbn; lia).
  - pose proof (stream_grows _ _ _ _ _ H) as G. rewrite app_length, repeat_length in G.
    destruct IHstream as [I1 I2]. rewrite lenZ_app in I2. unfold lenZ in I2 at 2. rewrite repeat_length in I2.
    assert (E : pd_step cap out (bits_of 5 0x1c ++ bs) =
      (false, if lenZ out + 8 >? cap then PErr (- ENOSPC) else POk (out ++ List.repeat 0 8) bs)).
    { unfold pd_step. now rewrite rdb_app by (cbn; lia). }
    rewrite Z.gtb_ltb in E.
    destruct (Z.ltb_spec cap (lenZ out + 8)) as [C|C].
    + split; intros. { unfold lenZ in *; lia. } exists 1%nat. cbn [pd_loop]. now rewrite E.
    + split; intros Hc.
      * destruct (I1 Hc) as [f Hf]. exists (S f). cbn [pd_loop]. now rewrite E.
      * destruct I2 as [f Hf]; [lia|]. exists (S f). cbn [pd_loop]. now rewrite E.
  - pose proof (stream_grows _ _ _ _ _ H1) as G.
    assert (LC : length (copies (Z.to_nat n + 1) (last8 out)) = ((Z.to_nat n + 1) * 8)%nat)
      by (rewrite copies_length, last8_length; auto).
    rewrite app_length, LC in G.
    destruct IHstream as [I1 I2]. rewrite lenZ_app in I2. unfold lenZ in I2 at 2. rewrite LC in I2.
    assert (E : pd_step cap out (bits_of 5 0x1b ++ bits_of 6 n ++ bs) =
      (false, if lenZ out + (n + 1) * 8 >? cap then PErr (- ENOSPC) else POk (out ++ copies (Z.to_nat n + 1) (last8 out)) bs)).
    { unfold pd_step. rewrite rdb_app by (cbn; lia). change (0x1b =? 0x1b) with true. cbv iota.
      rewrite rdb_app by (cbn; lia). destruct (Nat.eqb_spec (length out) 0); [lia|].
      destruct (Nat.ltb_spec (length out) 8); [lia|]. replace (Z.to_nat (n + 1)) with (Z.to_nat n + 1)%nat by lia. reflexivity. }
    rewrite Z.gtb_ltb in E.
    destruct (Z.ltb_spec cap (lenZ out + (n + 1) * 8)) as [C|C].
    + split; intros. { unfold lenZ in *; lia. } exists 1%nat. cbn [pd_loop]. now rewrite E.
    + split; intros Hc.
      * destruct (I1 Hc) as [f Hf]. exists (S f). cbn [pd_loop]. now rewrite E.
      * destruct I2 as [f Hf]; [lia|]. exists (S f). cbn [pd_loop]. now rewrite E.
  - pose proof (stream_grows _ _ _ _ _ H2) as G. rewrite app_length in G.
    destruct IHstream as [I1 I2]. rewrite lenZ_app in I2.
    destruct (bytes_as_bits d H1) as [EB V].
    assert (E : pd_step cap out (bits_of 5 0x1d ++ bits_of 3 (Z.of_nat (length d)) ++ bytes_bits d ++ bs) =
      (false, if lenZ out + lenZ d >? cap then PErr (- ENOSPC) else POk (out ++ d) bs)).
    { unfold pd_step. rewrite rdb_app by (cbn; lia). change (0x1d =? 0x1b) with false. change (0x1d =? 0x1c) with false.
      change (0x1d =? 0x1d) with true. cbv iota. rewrite rdb_app by (cbn; lia).
      destruct (Z.eqb_spec (Z.of_nat (length d)) 0); [lia|]. rewrite Nat2Z.id, EB, rdb_app, be_bytes_be_val by auto. reflexivity. }
    rewrite Z.gtb_ltb in E.
    destruct (Z.ltb_spec cap (lenZ out + lenZ d)) as [C|C].
    + split; intros. { unfold lenZ in *; lia. } exists 1%nat. cbn [pd_loop]. now rewrite E.
    + split; intros Hc.
      * destruct (I1 Hc) as [f Hf]. exists (S f). cbn [pd_loop]. now rewrite E.
      * destruct I2 as [f Hf]; [lia|]. exists (S f). cbn [pd_loop]. now rewrite E.
  - pose proof (stream_grows _ _ _ _ _ H2) as G.
    destruct (template_sizes _ _ H0) as (TS & TL & TR). pose proof (args_len _ _ _ _ _ H1 TS) as AL.
    destruct (pd_acts_complete cap _ _ _ _ _ H1 TS) as [A1 A2].
    destruct IHstream as [I1 I2].
    assert (E : pd_step cap out (bits_of 5 op ++ bs) = (false, pd_acts cap acts out bs)).
    { unfold pd_step. rewrite rdb_app by (cbn; lia). destruct (template_op_range _ _ H0) as (-> & -> & -> & ->). now rewrite H0. }
    destruct (Z_le_gt_dec (lenZ out1) cap) as [C|C].
    + rewrite A1 in E by auto. split; intros Hc.
      * destruct (I1 Hc) as [f Hf]. exists (S f). cbn [pd_loop]. now rewrite E.
      * destruct I2 as [f Hf]; [lia|]. exists (S f). cbn [pd_loop]. now rewrite E.
    + split; intros. { unfold lenZ in *; lia. } rewrite A2 in E by lia. exists 1%nat. cbn [pd_loop]. now rewrite E.
Qed.

(** A stream cut short is reported as exhausted input. *)
Lemma stream_cut cap sw out bits x rest : stream sw out bits x rest -> lenZ x <= cap ->
  forall c, bits = c ++ rest -> forall bs, cut bs c -> exists f, pd_loop f cap out bs = Some (PErr (- EOVERFLOW)).
Proof.
  intros HS Hx. induction HS; intros c Ec bs' Hcut.
  - apply app_inv_tail in Ec. subst c. exists 1%nat. cbn [pd_loop]. unfold pd_step.
    rewrite <- (app_nil_r (bits_of 5 30)) in Hcut. apply cut_cases in Hcut. destruct Hcut as [L|(b & -> & Hc)].
    + now rewrite (cut_short _ _ _ L).
    + now apply cut_nil in Hc.
  - destruct (stream_prefix _ _ _ _ _ HS) as (c1 & -> & P). rewrite app_assoc in Ec. apply app_inv_tail in Ec. subst c.
    pose proof (stream_grows _ _ _ _ _ HS) as G. rewrite app_length, repeat_length in G.
    apply cut_cases in Hcut. destruct Hcut as [L|(b & -> & Hc)].
    + exists 1%nat. cbn [pd_loop]. unfold pd_step. now rewrite (cut_short _ _ _ L).
    + destruct (IHHS Hx c1 eq_refl b Hc) as [f Hf]. exists (S f). cbn [pd_loop]. unfold pd_step.
      rewrite rdb_app by (cbn; lia). change (0x1c =? 0x1b) with false. change (0x1c =? 0x1c) with true. cbv iota.
      rewrite Z.gtb_ltb. destruct (Z.ltb_spec cap (lenZ out + 8)); [unfold lenZ in *; lia|]. exact Hf.
  - destruct (stream_prefix _ _ _ _ _ HS) as (c1 & -> & P). rewrite !app_assoc in Ec. apply app_inv_tail in Ec. subst c.
    rewrite <- app_assoc in Hcut.
    pose proof (stream_grows _ _ _ _ _ HS) as G.
    assert (LC : length (copies (Z.to_nat n + 1) (last8 out)) = ((Z.to_nat n + 1) * 8)%nat)
      by (rewrite copies_length, last8_length; auto).
    rewrite app_length, LC in G.
    apply cut_cases in Hcut. destruct Hcut as [L|(b & -> & Hc)].
    { exists 1%nat. cbn [pd_loop]. unfold pd_step. now rewrite (cut_short _ _ _ L). }
    apply cut_cases in Hc. destruct Hc as [L|(b' & -> & Hc)].
    { exists 1%nat. cbn [pd_loop]. unfold pd_step. rewrite rdb_app by (cbn; lia).
      change (0x1b =? 0x1b) with true. cbv iota. now rewrite (cut_short _ _ _ L). }
    destruct (IHHS Hx c1 eq_refl b' Hc) as [f Hf]. exists (S f). cbn [pd_loop]. unfold pd_step.
    rewrite rdb_app by (cbn; lia). change (0x1b =? 0x1b) with true. cbv iota. rewrite rdb_app by (cbn; lia).
    destruct (Nat.eqb_spec (length out) 0); [lia|].
    rewrite Z.gtb_ltb. destruct (Z.ltb_spec cap (lenZ out + (n + 1) * 8)); [unfold lenZ in *; lia|].
    destruct (Nat.ltb_spec (length out) 8); [lia|]. replace (Z.to_nat (n + 1)) with (Z.to_nat n + 1)%nat by lia. exact Hf.
  - destruct (stream_prefix _ _ _ _ _ HS) as (c1 & -> & P). rewrite !app_assoc in Ec. apply app_inv_tail in Ec. subst c.
    rewrite <- !app_assoc in Hcut. destruct (bytes_as_bits d H1) as [EB V].
    pose proof (stream_grows _ _ _ _ _ HS) as G. rewrite app_length in G.
    apply cut_cases in Hcut. destruct Hcut as [L|(b & -> & Hc)].
    { exists 1%nat. cbn [pd_loop]. unfold pd_step. now rewrite (cut_short _ _ _ L). }
    apply cut_cases in Hc.
    assert (ST : forall b, pd_step cap out (bits_of 5 29 ++ b) = (false, match rdb 3 b with
      | None => PErr (- EOVERFLOW)
      | Some (k, b2) =>
        if k =? 0 then PErr (- EINVAL)
        else if lenZ out + k >? cap then PErr (- ENOSPC)
        else match rdb (8 * Z.to_nat k) b2 with
             | None => PErr (- EOVERFLOW)
             | Some (v, b3) => POk (out ++ be_bytes (Z.to_nat k) v) b3
             end
      end)).
    { intros. unfold pd_step. now rewrite rdb_app by (cbn; lia). }
    destruct Hc as [L|(b' & -> & Hc)].
    { exists 1%nat. cbn [pd_loop]. rewrite ST. now rewrite (cut_short _ _ _ L). }
    assert (ST2 : forall b, pd_step cap out (bits_of 5 29 ++ bits_of 3 (Z.of_nat (length d)) ++ b) =
      (false, match rdb (8 * length d) b with
             | None => PErr (- EOVERFLOW)
             | Some (v, b3) => POk (out ++ be_bytes (length d) v) b3
             end)).
    { intros. rewrite ST, rdb_app by (cbn; lia). destruct (Z.eqb_spec (Z.of_nat (length d)) 0); [lia|].
      rewrite Z.gtb_ltb. destruct (Z.ltb_spec cap (lenZ out + Z.of_nat (length d))); [unfold lenZ in *; lia|].
      now rewrite Nat2Z.id. }
    rewrite EB in Hc. apply cut_cases in Hc. destruct Hc as [L|(b2 & -> & Hc)].
    { exists 1%nat. cbn [pd_loop]. rewrite ST2. now rewrite (cut_short _ _ _ L). }
    destruct (IHHS Hx c1 eq_refl b2 Hc) as [f Hf]. exists (S f). cbn [pd_loop]. rewrite ST2, rdb_app, be_bytes_be_val by auto. exact Hf.
  - destruct (stream_prefix _ _ _ _ _ HS) as (c1 & -> & P). destruct (args_prefix _ _ _ _ _ H1) as (ca & -> & PA).
    rewrite !app_assoc in Ec. apply app_inv_tail in Ec. subst c. rewrite <- !app_assoc in Hcut.
    destruct (template_sizes _ _ H0) as (TS & TL & TR). pose proof (stream_grows _ _ _ _ _ HS) as G.
    assert (L1 : lenZ out1 <= cap) by (unfold lenZ in *; lia).
    assert (ST : forall b, pd_step cap out (bits_of 5 op ++ b) = (false, pd_acts cap acts out b)).
    { intros. unfold pd_step. rewrite rdb_app by (cbn; lia). destruct (template_op_range _ _ H0) as (-> & -> & -> & ->). now rewrite H0. }
    apply cut_cases in Hcut. destruct Hcut as [L|(b & -> & Hc)].
    { exists 1%nat. cbn [pd_loop]. unfold pd_step. now rewrite (cut_short _ _ _ L). }
    apply cut_cases in Hc. destruct Hc as [L|(b2 & -> & Hc)].
    { exists 1%nat. cbn [pd_loop]. rewrite ST.
      now rewrite (pd_acts_cut cap acts out ca out1 PA TS L1 b L). }
    destruct (IHHS Hx c1 eq_refl b2 Hc) as [f Hf]. exists (S f). cbn [pd_loop]. rewrite ST.
    destruct (pd_acts_complete cap _ _ _ _ _ (PA b2) TS) as [A1 _]. rewrite A1 by auto. exact Hf.
Qed.
