(** A pure decoder for the GPU kernels: like [qd_step] (OptDecomp.v), but all
    fields of a template are computed from the output before the template and
    the room is checked after them. *)
From Coq Require Import ZArith List Bool Lia.
From Verif Require Import SpecBits SpecCrc Spec842 CBase BitsLemmas CrcProofs SerialIdeal SerialValid PureDecoder SerialFacts OptDecomp.
Import ListNotations.
Open Scope Z_scope.

Inductive kres := KOk (bs : list Z) (rest : list bool) | KErr | KUndef.

(** One argument; [ml] is the number of accessible output bytes.  An index
    argument reads at least four bytes. *)
Definition kval (ml : Z) (base : list Z) (a : action) (bits : list bool) : kres :=
  match a with
  | D n => match rdb (8 * n) bits with None => KErr | Some (v, r) => KOk (be_bytes n v) r end
  | I n =>
    match rdb (index_bits n) bits with
    | None => KErr
    | Some (i, r) =>
      let off := poff (length base) n i in
      if off + Z.of_nat n >? ptotal (length base) then KErr
      else if off + Z.max 4 (Z.of_nat n) >? ml then KUndef
      else KOk (slice (Z.to_nat off) n base) r
    end
  end.
Fixpoint kvals (ml : Z) (base : list Z) (acts : list action) (bits : list bool) : kres :=
  match acts with
  | [] => KOk [] bits
  | a :: acts' =>
    match kval ml base a bits with
    | KOk bs r => match kvals ml base acts' r with KOk bs' r' => KOk (bs ++ bs') r' | x => x end
    | x => x
    end
  end.

Definition kd_step (ml cap : Z) (out : list Z) (bits : list bool) : bool * pres :=
  match rdb 5 bits with
  | None => (false, PErr (- EINVAL))
  | Some (op, b1) =>
    match template op with
    | Some acts =>
      (false, match rdb (Z.to_nat (acts_width acts)) b1 with
      | None => PErr (- EINVAL)
      | Some (params, b2) =>
        match kvals ml out acts (bits_of (Z.to_nat (acts_width acts)) params) with
        | KErr => PErr (- EINVAL)
        | KUndef => PUndef
        | KOk bs _ => if lenZ out + 8 >? cap then PErr (- ENOSPC) else POk (out ++ bs) b2
        end
      end)
    | None =>
      if op =? 0x1b then
        (false, match rdb 6 b1 with
        | None => PErr (- EINVAL)
        | Some (rep, b2) =>
          if (length out =? 0)%nat then PErr (- EINVAL)
          else if lenZ out + (rep + 1) * 8 >? cap then PErr (- ENOSPC)
          else POk (out ++ copies (Z.to_nat (rep + 1)) (last8 out)) b2
        end)
      else if op =? 0x1c then (false, if lenZ out + 8 >? cap then PErr (- ENOSPC) else POk (out ++ List.repeat 0 8) b1)
      else if op =? 0x1e then (true, POk out b1)
      else (false, PErr (- EINVAL))
    end
  end.
Fixpoint kd_loop (fuel : nat) (ml cap : Z) (out : list Z) (bits : list bool) : option pres :=
  match fuel with
  | O => None
  | S f =>
    match kd_step ml cap out bits with
    | (true, r) => Some r
    | (false, POk o b) => kd_loop f ml cap o b
    | (false, r) => Some r
    end
  end.
(** What has been written when the loop stops. *)
Fixpoint kd_fin (fuel : nat) (ml cap : Z) (out : list Z) (bits : list bool) : list Z :=
  match fuel with
  | O => out
  | S f => match kd_step ml cap out bits with (false, POk o b) => kd_fin f ml cap o b | (true, POk o b) => o | _ => out end
  end.

(** * Fields against the reference decoder *)
Lemma ptotal_al8 base pre : al8 base -> (length pre < 8)%nat -> ptotal (length (base ++ pre)) = lenZ base.
Proof.
  unfold al8, ptotal, lenZ. intros H L. rewrite app_length.
  pose proof (Nat.div_mod (length base) 8 ltac:(lia)) as E. rewrite H in E.
  rewrite Nat2Z.inj_add. rewrite E at 1. replace (Z.of_nat (8 * (length base / 8) + 0)) with (Z.of_nat (length base / 8) * 8) by lia.
  rewrite Z.add_comm, Z.div_add by lia. rewrite Z.div_small by lia. lia.
Qed.
Lemma poff_al8 base pre n i : al8 base -> (length pre < 8)%nat -> poff (length (base ++ pre)) n i = poff (length base) n i.
Proof.
  intros H L. unfold poff. rewrite (ptotal_al8 base pre H L). replace (ptotal (length base)) with (lenZ base); auto.
  rewrite <- (ptotal_al8 base [] H ltac:(cbn; lia)). now rewrite app_nil_r.
Qed.
Lemma ptotal_base base : al8 base -> ptotal (length base) = lenZ base.
Proof. intros. rewrite <- (ptotal_al8 base []) by (auto; cbn; lia). now rewrite app_nil_r. Qed.
Lemma slice_app_l {A} p n (a b : list A) : (p + n <= length a)%nat -> slice p n (a ++ b) = slice p n a.
Proof.
  intros. unfold slice. rewrite skipn_app. rewrite firstn_app. rewrite skipn_length.
  replace (n - (length a - p))%nat with 0%nat by lia. now rewrite firstn_O, app_nil_r.
Qed.
Lemma kval_len ml base a bits bs r : act_size_ok a = true -> al8 base -> kval ml base a bits = KOk bs r -> length bs = act_len a.
Proof.
  intros SO HA. destruct a as [n|n]; cbn [kval act_len].
  - destruct (rdb _ _) as [[v r0]|]; [|discriminate]. intros E. injection E as <- <-. apply be_bytes_length.
  - destruct (rdb _ _) as [[v r0]|] eqn:R; [|discriminate]. destruct (_ >? _) eqn:C; [discriminate|].
    destruct (_ >? ml); [discriminate|]. intros E. injection E as <- <-.
    rewrite Z.gtb_ltb in C. apply Z.ltb_ge in C. rewrite ptotal_base in C by auto.
    apply rdb_some in R. destruct R as [_ R]. apply size_cases in SO. cbn [act_len] in SO.
    destruct (poff_spec (length base) n v SO R) as (P0 & _). apply slice_length. unfold lenZ in C. lia.
Qed.
Lemma kval_pd ml cap base pre a bits : al8 base -> act_size_ok a = true -> (length pre + act_len a <= 8)%nat -> lenZ base + 8 <= cap ->
  match kval ml base a bits with
  | KOk bs r => pd_act cap a (base ++ pre) bits = POk (base ++ pre ++ bs) r
  | KErr => exists c, pd_act cap a (base ++ pre) bits = PErr c
  | KUndef => ml < lenZ base + 2
  end.
Proof.
  intros HA SO HL HC. pose proof (size_cases _ SO) as SZ.
  assert (F : (lenZ (base ++ pre) + Z.of_nat (act_len a) >? cap) = false).
  { rewrite Z.gtb_ltb. apply Z.ltb_ge. rewrite lenZ_app. unfold lenZ in *. lia. }
  destruct a as [n|n]; cbn [kval pd_act act_len] in *.
  - unfold pd_data. rewrite F.
    destruct (rdb _ _) as [[v r]|]; eauto. now rewrite app_assoc.
  - unfold pd_index. destruct (rdb _ _) as [[i r]|] eqn:R; eauto. apply rdb_some in R. destruct R as [_ R].
    rewrite (poff_al8 base pre), (ptotal_al8 base pre), (ptotal_base base) by (auto; lia). cbv zeta.
    destruct (_ >? lenZ base) eqn:C; eauto. rewrite Z.gtb_ltb in C. apply Z.ltb_ge in C.
    destruct (poff_spec (length base) n i SZ R) as (P0 & _).
    destruct (_ >? ml) eqn:M; rewrite Z.gtb_ltb in M. { apply Z.ltb_lt in M. lia. }
    rewrite F, slice_app_l by (unfold lenZ in *; lia). now rewrite app_assoc.
Qed.
Lemma kvals_pd ml cap base acts : al8 base -> Forall (fun a => act_size_ok a = true) acts -> lenZ base + 8 <= cap -> forall pre bits,
  (length pre + acts_len acts <= 8)%nat ->
  match kvals ml base acts bits with
  | KOk bs r => pd_acts cap acts (base ++ pre) bits = POk (base ++ pre ++ bs) r /\ length bs = acts_len acts
  | KErr => exists c, pd_acts cap acts (base ++ pre) bits = PErr c
  | KUndef => ml < lenZ base + 2
  end.
Proof.
  intros HA HS HC. induction HS as [|a acts SO HS IH]; intros pre bits HL; cbn [kvals pd_acts].
  - now rewrite app_nil_r.
  - change (acts_len (a :: acts)) with (act_len a + acts_len acts)%nat in *.
    pose proof (kval_pd ml cap base pre a bits HA SO ltac:(lia) HC) as K.
    destruct (kval ml base a bits) as [bs r| |] eqn:E.
    + rewrite K. pose proof (kval_len _ _ _ _ _ _ SO HA E) as LB.
      specialize (IH (pre ++ bs) r). rewrite app_length in IH. specialize (IH ltac:(lia)).
      destruct (kvals ml base acts r) as [bs' r'| |]; auto.
      destruct IH as [-> L']. rewrite !app_assoc. split; auto. rewrite app_length. lia.
    + destruct K as [c ->]. eauto.
    + exact K.
Qed.

(** A literal of [a + b] bytes is a literal of [a] bytes and one of [b] bytes. *)
Lemma be_bytes_val l n : length l = (8 * n)%nat -> bytes_bits (be_bytes n (val l)) = l.
Proof. intros L. rewrite bytes_bits_be_bytes, <- L. apply bits_of_val. Qed.
Lemma kvals_split ml base a b acts bits : kvals ml base (D (a + b) :: acts) bits = kvals ml base (D a :: D b :: acts) bits.
Proof.
  cbn [kvals kval]. unfold rdb.
  destruct (Nat.leb_spec (8 * (a + b)) (length bits)) as [L|L].
  - destruct (Nat.leb_spec (8 * a) (length bits)); [|lia].
    destruct (Nat.leb_spec (8 * b) (length (skipn (8 * a) bits))) as [L2|L2]; rewrite skipn_length in L2; [|lia].
    rewrite skipn_add. replace (8 * a + 8 * b)%nat with (8 * (a + b))%nat by lia.
    destruct (kvals ml base acts _); auto. f_equal. rewrite app_assoc. f_equal.
    apply bytes_bits_inj; try apply is_bytes_app; repeat split; try apply be_bytes_is_bytes.
    rewrite bytes_bits_app, !be_bytes_val by (rewrite firstn_length, ?skipn_length; lia).
    rewrite <- (firstn_skipn (8 * a) (firstn (8 * (a + b)) bits)). rewrite firstn_firstn_le by lia. f_equal.
    rewrite skipn_firstn_comm. f_equal. lia.
  - destruct (Nat.leb_spec (8 * a) (length bits)); auto.
    destruct (Nat.leb_spec (8 * b) (length (skipn (8 * a) bits))) as [L2|L2]; rewrite skipn_length in L2; [lia|auto].
Qed.
Definition norm_act (a : action) : list action :=
  match a with D 4 => [D 2; D 2] | D 8 => [D 2; D 2; D 2; D 2] | _ => [a] end.
Definition norm (acts : list action) : list action := concat (map norm_act acts).
Lemma kvals_cons ml base a acts acts' : (forall bits, kvals ml base acts bits = kvals ml base acts' bits) ->
  forall bits, kvals ml base (a :: acts) bits = kvals ml base (a :: acts') bits.
Proof. intros H bits. cbn [kvals]. destruct (kval ml base a bits); auto. now rewrite H. Qed.
Lemma kvals_norm ml base acts : Forall (fun a => act_size_ok a = true) acts -> forall bits, kvals ml base (norm acts) bits = kvals ml base acts bits.
Proof.
  induction 1 as [|a acts SO HS IH]; intros bits; [reflexivity|].
  unfold norm. cbn [map concat]. fold (norm acts). pose proof (size_cases _ SO) as SZ.
  destruct a as [n|n]; cbn [act_len] in SZ.
  - destruct SZ as [-> | [-> | ->]]; cbn [norm_act app].
    + now apply kvals_cons.
    + change (D 4) with (D (2 + 2)). rewrite kvals_split. now repeat apply kvals_cons.
    + change (D 8) with (D (4 + 4)). rewrite kvals_split. change (D 4) with (D (2 + 2)) at 1. rewrite kvals_split.
      do 2 (apply kvals_cons; clear bits; intros bits).
      change (D 4) with (D (2 + 2)). rewrite kvals_split. now repeat apply kvals_cons.
  - cbn [norm_act app]. now apply kvals_cons.
Qed.

(** * Against [qd_step] *)
Definition kweaker (ml cap : Z) (out : list Z) (q k : pres) : Prop :=
  k = q \/ (q = PErr (- ENOSPC) /\ cap < lenZ out + 8 /\ (k = PErr (- EINVAL) \/ (k = PUndef /\ ml < lenZ out + 2))).
Lemma acts_width_len acts : forall out b o b', args out acts b o b' -> lenZ b = acts_width acts + lenZ b'.
Proof.
  intros out b o b'. induction 1; cbn [acts_width fold_right]; try fold (acts_width acts); rewrite ?lenZ_app; auto.
  - rewrite IHargs. cbn [act_width]. unfold lenZ at 1. rewrite bytes_bits_length. lia.
  - rewrite IHargs. cbn [act_width]. unfold lenZ at 1. rewrite bits_of_length. lia.
Qed.
Lemma kval_more ml base a bits more : 
  match kval ml base a bits with
  | KOk bs r => kval ml base a (bits ++ more) = KOk bs (r ++ more)
  | KErr => (length bits >= Z.to_nat (act_width a))%nat -> kval ml base a (bits ++ more) = KErr
  | KUndef => kval ml base a (bits ++ more) = KUndef
  end.
Proof.
  assert (RD : forall n, rdb n (bits ++ more) = match rdb n bits with Some (v, r) => Some (v, r ++ more) | None => rdb n (bits ++ more) end).
  { intros n. unfold rdb. rewrite app_length. destruct (Nat.leb_spec n (length bits)); [|auto].
    destruct (Nat.leb_spec n (length bits + length more)); [|lia].
    rewrite firstn_app, skipn_app. replace (n - length bits)%nat with 0%nat by lia. now rewrite firstn_O, app_nil_r. }
  destruct a as [n|n]; cbn [kval act_width].
  - rewrite RD. destruct (rdb (8 * n) bits) as [[v r]|] eqn:R; auto. intros G. unfold rdb in R.
    destruct (Nat.leb_spec (8 * n) (length bits)); [discriminate|lia].
  - rewrite RD. destruct (rdb (index_bits n) bits) as [[v r]|] eqn:R.
    + cbv zeta. destruct (_ >? _); auto. destruct (_ >? ml); auto.
    + intros G. unfold rdb in R. destruct (Nat.leb_spec (index_bits n) (length bits)); [discriminate|lia].
Qed.
Lemma kval_width ml base a bits bs r : kval ml base a bits = KOk bs r -> lenZ bits = act_width a + lenZ r.
Proof.
  destruct a as [n|n]; cbn [kval act_width].
  - destruct (rdb _ _) as [[v r0]|] eqn:R; [|discriminate]. intros E. injection E as <- <-. apply rdb_len in R. unfold lenZ. lia.
  - destruct (rdb _ _) as [[v r0]|] eqn:R; [|discriminate]. destruct (_ >? ptotal _); [discriminate|]. destruct (_ >? ml); [discriminate|].
    intros E. injection E as <- <-. apply rdb_len in R. unfold lenZ. lia.
Qed.
Lemma kvals_more ml base acts : forall bits more, acts_width acts <= lenZ bits ->
  kvals ml base acts (bits ++ more) =
  match kvals ml base acts bits with KOk bs r => KOk bs (r ++ more) | x => x end.
Proof.
  induction acts as [|a acts IH]; intros bits more HW; cbn [kvals]; auto.
  change (acts_width (a :: acts)) with (act_width a + acts_width acts) in HW.
  pose proof (kval_more ml base a bits more) as K. pose proof (acts_width_nonneg acts) as W0.
  destruct (kval ml base a bits) as [bs r| |] eqn:E.
  - rewrite K. apply kval_width in E. rewrite IH by lia. destruct (kvals ml base acts r); auto.
  - rewrite K; auto. unfold lenZ in *. lia.
  - now rewrite K.
Qed.
Lemma kvals_width ml base acts : forall bits bs r, kvals ml base acts bits = KOk bs r -> lenZ bits = acts_width acts + lenZ r.
Proof.
  induction acts as [|a acts IH]; intros bits bs r E; cbn [kvals] in E. { injection E as <- <-. cbn. lia. }
  destruct (kval ml base a bits) as [bs1 r1| |] eqn:E1; try discriminate.
  destruct (kvals ml base acts r1) as [bs2 r2| |] eqn:E2; try discriminate. injection E as <- <-.
  apply kval_width in E1. apply IH in E2. change (acts_width (a :: acts)) with (act_width a + acts_width acts). lia.
Qed.
(** The template case of [kd_step]. *)
Lemma kd_template ml cap out acts b1 : al8 out -> Forall (fun a => act_size_ok a = true) acts -> acts_len acts = 8%nat ->
  cap < lenZ out + 8 -> forall cap', lenZ out + 8 <= cap' ->
  let k := match rdb (Z.to_nat (acts_width acts)) b1 with
      | None => PErr (- EINVAL)
      | Some (params, b2) =>
        match kvals ml out acts (bits_of (Z.to_nat (acts_width acts)) params) with
        | KErr => PErr (- EINVAL)
        | KUndef => PUndef
        | KOk bs _ => if lenZ out + 8 >? cap then PErr (- ENOSPC) else POk (out ++ bs) b2
        end end in
  (forall o b, pd_acts cap' acts out b1 = POk o b -> k = PErr (- ENOSPC) \/ (k = PUndef /\ ml < lenZ out + 2)) /\
  (k = PErr (- ENOSPC) \/ k = PErr (- EINVAL) \/ (k = PUndef /\ ml < lenZ out + 2)).
Proof.
  intros HA HS HL HC cap' HC'. cbv zeta.
  destruct (rdb _ b1) as [[params b2]|] eqn:R.
  - assert (NF : (lenZ out + 8 >? cap) = true) by (rewrite Z.gtb_ltb; apply Z.ltb_lt; lia). rewrite NF.
    pose proof (rdb_some _ _ _ _ R) as [E _].
    pose proof (kvals_pd ml cap' out acts HA HS HC' [] b1 ltac:(cbn; lia)) as K. rewrite app_nil_r in K.
    pose proof (kvals_more ml out acts (bits_of (Z.to_nat (acts_width acts)) params) b2) as M. rewrite <- E in M.
    rewrite M in K. 2: { pose proof (acts_width_nonneg acts). unfold lenZ. rewrite bits_of_length. lia. }
    destruct (kvals ml out acts (bits_of _ params)) as [bs r| |]; auto. split; auto.
    intros o b P. destruct K as [c K]. congruence.
  - split; auto. intros o b P. exfalso.
    destruct (pd_acts_sound cap' acts HS _ _ _ _ P) as (S1 & _). apply acts_width_len in S1.
    unfold rdb in R. destruct (Nat.leb_spec (Z.to_nat (acts_width acts)) (length b1)); [discriminate|].
    pose proof (lenZ_nonneg b). unfold lenZ in *. lia.
Qed.

Lemma kd_step_qd ml cap out bits : al8 out -> cap <= ml ->
  fst (kd_step ml cap out bits) = fst (qd_step cap out bits) /\ kweaker ml cap out (snd (qd_step cap out bits)) (snd (kd_step ml cap out bits)).
Proof.
  intros HA HM. unfold kd_step, qd_step, kweaker. destruct (rdb 5 bits) as [[op b1]|] eqn:R; [|cbn; auto].
  destruct (template op) as [acts|] eqn:T.
  - destruct (template_sizes _ _ T) as (TS & TL & TR). destruct (Z.ltb_spec op 26); [|lia]. cbn [orb andb].
    destruct (lenZ out + 8 >? cap) eqn:C; rewrite Z.gtb_ltb in C.
    + apply Z.ltb_lt in C. cbn [fst snd]. split; auto.
      destruct (kd_template ml cap out acts b1 HA TS TL C (lenZ out + 8) ltac:(lia)) as [_ K]. cbv zeta in K.
      assert (NF : (lenZ out + 8 >? cap) = true) by (rewrite Z.gtb_ltb; apply Z.ltb_lt; lia). rewrite NF in K.
      destruct K as [K|[K|[K ?]]]; rewrite K; auto 10.
    + apply Z.ltb_ge in C. cbn [fst snd]. split; auto. left.
      destruct (rdb (Z.to_nat (acts_width acts)) b1) as [[params b2]|] eqn:R2.
      * pose proof (rdb_some _ _ _ _ R2) as [E _].
        pose proof (kvals_pd ml cap out acts HA TS C [] b1 ltac:(cbn; lia)) as K. rewrite app_nil_r in K.
        pose proof (kvals_more ml out acts (bits_of (Z.to_nat (acts_width acts)) params) b2) as M. rewrite <- E in M.
        assert (LB : lenZ (bits_of (Z.to_nat (acts_width acts)) params) = acts_width acts).
        { pose proof (acts_width_nonneg acts). unfold lenZ. rewrite bits_of_length. lia. }
        rewrite M in K by lia.
        destruct (kvals ml out acts (bits_of _ params)) as [bs r| |] eqn:KV.
        -- apply kvals_width in KV. destruct r; [|exfalso; rewrite lenZ_cons in KV; pose proof (lenZ_nonneg r); lia].
           destruct K as [-> _]. rewrite app_nil_l. reflexivity.
        -- destruct K as [c ->]. reflexivity.
        -- lia.
      * destruct (pd_acts cap acts out b1) as [o b| |] eqn:P; auto. exfalso.
        destruct (pd_acts_sound cap acts TS _ _ _ _ P) as (S1 & _). apply acts_width_len in S1.
        unfold rdb in R2. destruct (Nat.leb_spec (Z.to_nat (acts_width acts)) (length b1)); [discriminate|].
        pose proof (lenZ_nonneg b). unfold lenZ in *. lia.
  - apply rdb_some in R. destruct R as [_ R]. change (2 ^ Z.of_nat 5) with 32 in R.
    assert (N26 : (op <? 26) = false).
    { destruct (Z.ltb_spec op 26); auto. exfalso. revert T.
      assert (X : forallb (fun k => match template (Z.of_nat k) with None => false | _ => true end) (seq 0 26) = true) by (vm_compute; reflexivity).
      rewrite forallb_forall in X. specialize (X (Z.to_nat op) ltac:(apply in_seq; lia)). cbv beta in X. rewrite Z2Nat.id in X by lia.
      destruct (template op); discriminate. }
    rewrite N26. cbn [orb]. destruct (Z.eqb_spec op 0x1b) as [->|N1]; [cbn; auto|].
    destruct (Z.eqb_spec op 0x1c) as [->|N2]. { cbn [andb]. destruct (_ >? _); cbn; auto. }
    cbn [andb]. destruct (op =? 0x1e); cbn; auto.
Qed.

Lemma kd_loop_qd ml cap (HM : cap <= ml) fuel : forall out bits, al8 out -> lenZ out <= cap ->
  match qd_loop fuel cap out bits with
  | Some (PErr c) => kd_loop fuel ml cap out bits = Some (PErr c) \/
      (c = - ENOSPC /\ kd_loop fuel ml cap out bits = Some (PErr (- EINVAL))) \/
      (c = - ENOSPC /\ ml < cap + 2 /\ kd_loop fuel ml cap out bits = Some PUndef)
  | r => kd_loop fuel ml cap out bits = r
  end.
Proof.
  induction fuel as [|f IH]; intros out bits HA HC; [reflexivity|]. cbn [qd_loop kd_loop].
  pose proof (kd_step_qd ml cap out bits HA HM) as [F K]. pose proof (qd_step_good cap out bits) as QG.
  destruct (qd_step cap out bits) as [fq q] eqn:EQ, (kd_step ml cap out bits) as [fk k]. cbn [fst snd] in *. subst fk.
  destruct K as [->|(-> & HC8 & K)].
  - destruct fq. { destruct q; auto. } destruct q as [o b|c|]; auto.
    destruct (qd_step_sound _ _ _ _ _ _ HA EQ) as (_ & S2 & _ & S4 & _). apply IH; auto.
  - destruct fq; destruct K as [->|[-> ?]]; auto; right; right; repeat split; auto; lia.
Qed.
(** A well-formed stream that does not fit is reported as such. *)
Lemma kd_stream_nospace ml cap out bits x rest : stream false out bits x rest -> al8 out -> lenZ out <= cap < lenZ x -> cap <= ml ->
  exists f, kd_loop f ml cap out bits = Some (PErr (- ENOSPC)) \/ (ml < cap + 2 /\ kd_loop f ml cap out bits = Some PUndef).
Proof.
  intros ST. revert cap. induction ST; intros cap HA HC HM.
  - lia.
  - destruct (Z.ltb_spec cap (lenZ out + 8)) as [C|C].
    + exists 1%nat. left. cbn [kd_loop]. unfold kd_step. rewrite rdb_app by (cbn; lia). change (template 28) with (@None (list action)).
      change (28 =? 27) with false. change (28 =? 28) with true. cbv iota.
      rewrite Z.gtb_ltb. destruct (Z.ltb_spec cap (lenZ out + 8)); [reflexivity|lia].
    + destruct (IHST cap) as [f F]; auto. { eapply (al8_app _ 1); eauto. } { rewrite lenZ_app. change (lenZ (List.repeat 0 8)) with 8. lia. }
      exists (S f). cbn [kd_loop]. unfold kd_step. rewrite rdb_app by (cbn; lia). change (template 28) with (@None (list action)).
      change (28 =? 27) with false. change (28 =? 28) with true. cbv iota.
      rewrite Z.gtb_ltb. destruct (Z.ltb_spec cap (lenZ out + 8)); [lia|exact F].
  - assert (LC : length (copies (Z.to_nat n + 1) (last8 out)) = (8 * (Z.to_nat n + 1))%nat) by (rewrite copies_length, last8_length; auto; lia).
    assert (E : kd_step ml cap out (bits_of 5 0x1b ++ bits_of 6 n ++ bs) =
      (false, if lenZ out + (n + 1) * 8 >? cap then PErr (- ENOSPC) else POk (out ++ copies (Z.to_nat n + 1) (last8 out)) bs)).
    { unfold kd_step. rewrite rdb_app by (cbn; lia). 
      change (template 27) with (@None (list action)). change (0x1b =? 0x1b) with true. cbv iota.
      rewrite rdb_app by (cbn; lia). destruct (Nat.eqb_spec (length out) 0); [lia|].
      replace (Z.to_nat (n + 1)) with (Z.to_nat n + 1)%nat by lia. reflexivity. }
    rewrite Z.gtb_ltb in E. destruct (Z.ltb_spec cap (lenZ out + (n + 1) * 8)) as [C|C].
    + exists 1%nat. left. cbn [kd_loop]. now rewrite E.
    + destruct (IHST cap) as [f F]; auto. { eapply al8_app; eauto. } { rewrite lenZ_app. unfold lenZ at 2. rewrite LC. lia. }
      exists (S f). cbn [kd_loop]. now rewrite E.
  - discriminate.
  - destruct (template_sizes _ _ H0) as (TS & TL & TR). pose proof (args_len _ _ _ _ _ H1 TS) as AL.
    destruct (Z.ltb_spec cap (lenZ out + 8)) as [C|C].
    + destruct (pd_acts_complete (lenZ out + 8) _ _ _ _ _ H1 TS) as [A1 _]. specialize (A1 ltac:(unfold lenZ in *; lia)).
      destruct (kd_template ml cap out acts bs HA TS TL C (lenZ out + 8) ltac:(lia)) as [K _]. cbv zeta in K. specialize (K _ _ A1).
      exists 1%nat. cbn [kd_loop]. unfold kd_step. rewrite rdb_app by (cbn; lia). rewrite H0.
      destruct K as [K|[K ?]]; rewrite K; auto. right. split; auto. lia.
    + destruct (kd_step_qd ml cap out (bits_of 5 op ++ bs) HA HM) as [F K].
      destruct (pd_acts_complete cap _ _ _ _ _ H1 TS) as [A1 _]. specialize (A1 ltac:(unfold lenZ in *; lia)).
      assert (E : qd_step cap out (bits_of 5 op ++ bs) = (false, POk out1 bs1)).
      { unfold qd_step. rewrite rdb_app by (cbn; lia). rewrite H0, A1. destruct (Z.ltb_spec op 26); [|lia]. cbn [orb andb].
        rewrite Z.gtb_ltb. destruct (Z.ltb_spec cap (lenZ out + 8)); [lia|reflexivity]. }
      rewrite E in F, K. cbn [fst snd] in F, K. destruct K as [K|[K _]]; [|discriminate].
      destruct (IHST cap) as [f FF]; auto.
      { unfold al8 in *. rewrite AL, TL. replace (length out + 8)%nat with (length out + 1 * 8)%nat by lia. now rewrite Nat.mod_add by lia. }
      { unfold lenZ in *. lia. }
      exists (S f). cbn [kd_loop]. destruct (kd_step ml cap out _) as [fk k]. cbn [fst snd] in F, K. subst. exact FF.
Qed.

(** The memory behind the output chunk plays no role if two bytes follow it. *)
Lemma kval_ml ml ml' base a bits : al8 base -> lenZ base + 2 <= ml -> lenZ base + 2 <= ml' -> act_size_ok a = true -> kval ml base a bits = kval ml' base a bits.
Proof.
  intros HA H1 H2 HS. destruct a as [n|n]; [reflexivity|]. cbn [kval]. destruct (rdb _ bits) as [[i r]|]; [|reflexivity].
  rewrite (ptotal_base _ HA). cbv zeta. destruct (Z.gtb_spec (poff (length base) n i + Z.of_nat n) (lenZ base)); [reflexivity|].
  assert (Z.max 4 (Z.of_nat n) <= Z.of_nat n + 2).
  { destruct n as [|[|n]]; try discriminate. lia. }
  destruct (Z.gtb_spec (poff (length base) n i + Z.max 4 (Z.of_nat n)) ml); [lia|].
  destruct (Z.gtb_spec (poff (length base) n i + Z.max 4 (Z.of_nat n)) ml'); [lia|]. reflexivity.
Qed.
Lemma kvals_ml ml ml' base acts : al8 base -> lenZ base + 2 <= ml -> lenZ base + 2 <= ml' -> Forall (fun a => act_size_ok a = true) acts ->
  forall bits, kvals ml base acts bits = kvals ml' base acts bits.
Proof.
  intros HA H1 H2. induction 1 as [|a acts Ha Hs IH]; intros bits; [reflexivity|]. cbn [kvals]. rewrite (kval_ml ml ml') by auto.
  destruct (kval ml' base a bits); auto. now rewrite IH.
Qed.
Lemma kd_step_ml ml ml' cap out bits : al8 out -> lenZ out <= cap -> cap + 2 <= ml -> cap + 2 <= ml' -> kd_step ml cap out bits = kd_step ml' cap out bits.
Proof.
  intros HA HC H1 H2. unfold kd_step. destruct (rdb 5 bits) as [[op b]|]; [|reflexivity]. destruct (template op) as [acts|] eqn:T; [|reflexivity].
  destruct (template_sizes _ _ T) as (TS & _). destruct (rdb _ b) as [[v r]|]; [|reflexivity]. rewrite (kvals_ml ml ml') by (auto; lia). reflexivity.
Qed.
Lemma kd_step_keeps ml cap out bits f o b : al8 out -> lenZ out <= cap -> cap <= ml -> kd_step ml cap out bits = (f, POk o b) -> al8 o /\ lenZ o <= cap.
Proof.
  intros HA HC HM E. destruct (kd_step_qd ml cap out bits HA HM) as [F K]. rewrite E in F, K. cbn [fst snd] in F, K.
  destruct K as [K|(_ & _ & [K|[K _]])]; try discriminate.
  destruct (qd_step cap out bits) as [fq q] eqn:Q. cbn [fst snd] in F, K. subst.
  destruct (qd_step_sound _ _ _ _ _ _ HA Q) as (_ & S2 & _ & S4 & _). split; auto.
Qed.
Lemma kd_loop_ml ml ml' cap f : cap + 2 <= ml -> cap + 2 <= ml' -> forall out bits, al8 out -> lenZ out <= cap ->
  kd_loop f ml cap out bits = kd_loop f ml' cap out bits /\ kd_fin f ml cap out bits = kd_fin f ml' cap out bits.
Proof.
  intros H1 H2. induction f as [|f IH]; intros out bits HA HC; [auto|]. cbn [kd_loop kd_fin]. rewrite (kd_step_ml ml ml') by auto.
  destruct (kd_step ml' cap out bits) as [[] [o b|c|]] eqn:E; auto. assert (HM : cap <= ml') by lia. destruct (kd_step_keeps _ _ _ _ _ _ _ HA HC HM E). auto.
Qed.
Lemma kd_loop_more ml cap f : forall f' out bits r, kd_loop f ml cap out bits = Some r -> (f <= f')%nat ->
  kd_loop f' ml cap out bits = Some r /\ kd_fin f' ml cap out bits = kd_fin f ml cap out bits.
Proof.
  induction f as [|f IH]; intros f' out bits r E L; [discriminate|]. destruct f' as [|f']; [lia|]. cbn [kd_loop kd_fin] in *.
  destruct (kd_step ml cap out bits) as [[] [o b|c|]]; auto. apply IH; auto. lia.
Qed.
