(** The extent of C89: the NUMA sample programs fail on every machine whose nodes do not all have the same number of threads. *)
From Coq Require Import ZArith List Bool Lia.
From Verif Require Import SpecBits SpecCalls CBase ConcLib BitsLemmas OclProofs OptCompModel OptDecompModel ChunkedModel PgasusModel SpecPgasus PgasusProofs.
Import ListNotations.
Open Scope Z_scope.

Lemma above_average T cpus : forall n, fold_right Z.add 0 cpus = lenZ cpus * T + n -> 0 <= n -> (0 < n \/ exists c, In c cpus /\ c <> T) -> exists k c, nth_error cpus k = Some c /\ T < c.
Proof.
  induction cpus as [|c cpus IH]; intros n E N X.
  - cbn [fold_right] in E. change (lenZ []) with 0 in E. destruct X as [X|(c & [] & _)]. lia.
  - cbn [fold_right] in E. rewrite lenZ_cons in E. destruct (Z.lt_ge_cases T c) as [L|G]; [exists O, c; auto|].
    destruct (IH (n + T - c)) as (k & d & K1 & K2); [lia|lia| |exists (S k), d; auto].
    destruct (Z.eq_dec c T) as [->|NE]; [|left; lia]. destruct X as [X|(d & [<-|I] & D)]; [left; lia|now elim D|right; eauto].
Qed.
Lemma combine_nth_l {A B} k : forall (l : list A) (r : list B) a b c, nth_error (combine l r) k = Some (a, b) -> nth_error l k = Some c -> a = c.
Proof. induction k as [|k IH]; intros [|x l] [|y r] a b c; cbn; try discriminate; [intros [= -> _] [= ->]; reflexivity|apply IH]. Qed.
Lemma team_run_app {M} omp cpc (work : nat -> Z -> M -> outcome (M * Z)) a : forall b w, team_run omp cpc work (a ++ b) w = bind (team_run omp cpc work a w) (team_run omp cpc work b).
Proof.
  induction a as [|x a IH]; intros b w; [reflexivity|]. cbn [app team_run]. destruct (team_step omp cpc work x w) as [w'| |]; cbn [bind]; auto.
Qed.

(** C89 fails on every machine with [lenZ cpus] nodes and, on average, [T] threads per node unless each node has [T] of them: whatever the library functions do, for every
    non-empty file below 2 GiB, if the threads of some node are the first to start, one of them reads outside the input buffer of its node. *)
Theorem C89_unequal_nodes_refuted : forall compress decompress C iaddr oaddr daddr omp (T : nat) cpus junk file, 0 < C -> (0 < T)%nat ->
  fold_right Z.add 0 cpus = lenZ cpus * Z.of_nat T -> (exists c, In c cpus /\ c <> Z.of_nat T) -> C * (lenZ cpus * Z.of_nat T) < 2 ^ 62 -> 0 < lenZ file < 2 ^ 31 ->
  exists start, forall csched dsched,
  pgasus compress decompress C iaddr oaddr daddr omp (lenZ cpus * Z.of_nat T) cpus junk (start ++ csched) dsched file = Undef.
Proof.
  intros compress decompress C iaddr oaddr daddr omp T cpus junk file HC HT HS HX HP HF.
  destruct (above_average (Z.of_nat T) cpus 0) as (k & c & NK & LC); [lia|lia|auto|].
  assert (KL : (k < length cpus)%nat) by (apply nth_error_Some; congruence).
  exists (map (fun t => (k, t)) (seq 0 T) ++ [(k, T); (k, T)]). intros csched dsched.
  unfold pgasus. cbv zeta. assert (L0 : 0 < lenZ cpus) by (unfold lenZ; lia). set (U := C * (lenZ cpus * Z.of_nat T)) in *.
  assert (0 < lenZ cpus * Z.of_nat T) by nia. assert (0 < U) by (unfold U; nia).
  assert (U32 : u32 (lenZ file) = lenZ file) by (unfold u32; apply Z.mod_small; lia). rewrite int_length_small by lia. rewrite U32.
  rewrite padded_length by (fold U; lia). fold U. set (q := (lenZ file + U - 1) / U).
  assert (Q0 : 1 <= q). { unfold q. apply Z.div_le_lower_bound; lia. }
  assert (QU : q * U < 2 ^ 63). { unfold q. pose proof (Z.mul_div_le (lenZ file + U - 1) U ltac:(lia)). lia. }
  destruct (Z.eqb_spec (lenZ cpus) 0); [lia|].
  replace (q * U) with (C * (q * Z.of_nat T) * lenZ cpus) by (unfold U; ring). rewrite Z.div_mul by lia.
  rewrite (Z.mul_comm (lenZ cpus) (Z.of_nat T)), Z.div_mul by lia. destruct (Z.eqb_spec (Z.of_nat T) 0); [lia|].
  rewrite (Z.mul_comm C (q * Z.of_nat T)), Z.div_mul by lia. rewrite Z.div_mul by lia.
  set (ins := map (node_input file (q * Z.of_nat T * C)) (seq 0 (length cpus))).
  assert (NI : lenZ (nth k ins []) = q * Z.of_nat T * C).
  { unfold ins. rewrite nth_indep with (d' := node_input file (q * Z.of_nat T * C) 0) by (rewrite map_length, seq_length; lia). rewrite map_nth, seq_nth by lia.
    unfold node_input. set (part := firstn _ _). assert (length part <= Z.to_nat (q * Z.of_nat T * C))%nat by (unfold part; rewrite firstn_length; lia).
    unfold lenZ. rewrite app_length, repeat_length. nia. }
  set (mems := map _ cpus). unfold phase at 1. rewrite <- app_assoc, team_run_app. set (w := map _ (combine cpus mems)).
  assert (NW : exists m, nth_error w k = Some (mkTeam m 0 (repeat WNew (Z.to_nat c)))).
  { assert (LW : length w = length cpus) by (unfold w, mems; rewrite map_length, combine_length, map_length; lia).
    destruct (nth_error w k) as [tm|] eqn:E. 2: { apply nth_error_None in E. lia. } unfold w in E. rewrite nth_error_map in E.
    destruct (nth_error (combine cpus mems) k) as [[a m]|] eqn:F; [|discriminate]. cbn [option_map fst snd] in E. injection E as <-.
    assert (a = c) by (eapply combine_nth_l; eauto).
    subst a. exists m. reflexivity. }
  destruct NW as [m NW]. assert (CS : Z.of_nat (S T) <= c) by lia.
  (* only the first T + 1 threads matter *)
  assert (TT : forall t, (t <= T)%nat -> exists w' ws, team_run omp q (pg_compress compress C iaddr oaddr ins) (map (fun t => (k, t)) (seq 0 t)) w = Done w' /\
    nth_error w' k = Some (mkTeam m (if omp then 0 else Z.of_nat t) ws) /\ forall j, (t <= j < Z.to_nat c)%nat -> nth_error ws j = Some WNew).
  { induction t as [|t IH]; intros Ht.
    - exists w, (repeat WNew (Z.to_nat c)). split; [reflexivity|]. split; [destruct omp; exact NW|]. intros j Hj.
      destruct (nth_error (repeat WNew (Z.to_nat c)) j) as [v|] eqn:F; [apply nth_error_In, repeat_spec in F; now rewrite F|]. apply nth_error_None in F. rewrite repeat_length in F. lia.
    - destruct (IH ltac:(lia)) as (w' & ws & R & W & N). rewrite seq_S, map_app, team_run_app, R, bind_done. cbn [map team_run]. rewrite Nat.add_0_l.
      unfold team_step. rewrite W. cbn [t_workers]. rewrite (N t) by lia. rewrite !bind_done. eexists _, _. split; [reflexivity|].
      rewrite (nth_setnth_same _ _ _ _ W). unfold first_chunk. cbn [t_ids t_mem t_workers]. split.
      + destruct omp; [reflexivity|]. unfold u64. assert (Z.of_nat T < 2 ^ 62) by nia. rewrite Z.mod_small by lia. rewrite Nat2Z.inj_succ. reflexivity.
      + intros j Hj. rewrite nth_setnth_other by lia. apply N. lia. }
  destruct (TT T ltac:(lia)) as (w' & ws & R & W & N). rewrite R, bind_done. cbn [app team_run]. unfold team_step at 1. rewrite W. cbn [t_workers]. rewrite (N T) by lia. rewrite bind_done.
  unfold first_chunk. cbn [t_ids t_mem t_workers]. set (id := if omp then Z.of_nat T else _). assert (ID : id = Z.of_nat T) by (unfold id; now destruct omp). rewrite ID.
  assert (QT : 0 <= Z.of_nat T * q /\ Z.of_nat T * q + q < 2 ^ 64).
  { split; [nia|]. assert (Z.of_nat T * q <= q * U) by (unfold U; nia). assert (q <= q * U) by nia. lia. }
  rewrite !(u64_small (Z.of_nat T * q)) by lia. rewrite (u64_small (Z.of_nat T * q + q)) by lia. rewrite (u64_small (Z.of_nat T * q + q - 1)) by lia.
  unfold at_chunk. destruct (Z.leb_spec (Z.of_nat T * q) (Z.of_nat T * q + q - 1)); [|lia].
  set (tm := mkTeam m _ _). unfold team_step at 1. rewrite (nth_setnth_same _ _ _ _ W). unfold tm at 1. cbn [t_workers]. rewrite (nth_setnth_same _ _ _ _ (N T ltac:(lia))).
  unfold next_chunk, pg_compress. destruct (t_mem tm) as [comp sizes]. rewrite load_bytes_oob; [reflexivity|]. rewrite NI. nia.
Qed.
Print Assumptions C89_unequal_nodes_refuted.
(** A machine with a node of one and a node of three threads. *)
Example C89_unequal_case : fold_right Z.add 0 [1; 3] = lenZ [1; 3] * Z.of_nat 2 /\ (exists c, In c [1; 3] /\ c <> Z.of_nat 2) /\ 65536 * (lenZ [1; 3] * Z.of_nat 2) < 2 ^ 62.
Proof. split; [reflexivity|]. split; [exists 1; split; [left; reflexivity|discriminate]|reflexivity]. Qed.
