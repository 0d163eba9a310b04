(** The placement of threads and the logarithm: proofs. *)
From Coq Require Import ZArith List Bool Lia FinFun.
From Verif Require Import CBase MiscModel SpecMisc.
Import ListNotations.
Open Scope Z_scope.

Lemma in_below n c : In c (cpus_below n) <-> 0 <= c < n.
Proof.
  unfold cpus_below. rewrite in_map_iff. split.
  - intros (i & <- & Hi). apply in_seq in Hi. lia.
  - intros H. exists (Z.to_nat c). split; [lia|]. apply in_seq. lia.
Qed.
Lemma in_usable h n : In n (usable_nodes h) <-> usable h n.
Proof. unfold usable_nodes. rewrite filter_In. fold (cpus_below (h_max_node h + 1)). rewrite in_below. unfold usable. split; intros [H1 H2]; (split; [lia|auto]). Qed.

Definition cpuset (h : machine) (n : Z) : list Z := filter (fun c => h_cpu h n c) (cpus_below (h_nprocs h)).
Lemma cpusets_eq h : h_numa h = true -> get_numa_cpusets h = map (cpuset h) (usable_nodes h).
Proof. intros H. unfold get_numa_cpusets. rewrite H. reflexivity. Qed.

Lemma cpuset_plain h n : plain_machine h -> usable h n -> (forall c, In c (cpuset h n) <-> 0 <= c /\ h_cpu h n c = true) /\ cpuset h n <> [] /\ existsb (h_online h) (cpuset h n) = true.
Proof.
  intros (_ & P1 & P2) U. assert (A : forall c, In c (cpuset h n) <-> 0 <= c /\ h_cpu h n c = true).
  { intros c. unfold cpuset. rewrite filter_In, in_below. split; [intros [H1 H2]; split; [lia|auto]|]. intros [H1 H2]. split; auto. split; auto. now apply (P1 n c). }
  split; auto. destruct (P2 n U) as (c & C0 & C). assert (I : In c (cpuset h n)) by (apply A; auto). split.
  - intros E. rewrite E in I. destruct I.
  - apply existsb_exists. exists c. split; auto. now apply (P1 n c).
Qed.
Lemma spread_all h sets k : forall i, (0 < length sets)%nat -> (forall s, In s sets -> existsb (h_online h) s = true) ->
  spread h (fun _ => 0) sets k i = map (fun j => Some (nth (j mod length sets) sets [])) (seq i k).
Proof.
  induction k as [|k IH]; intros i HL HS; [reflexivity|]. cbn [spread seq map]. unfold setaffinity. cbn [negb Z.eqb].
  rewrite HS by (apply nth_In, Nat.mod_upper_bound; lia). cbn [negb Z.eqb]. f_equal. now apply IH.
Qed.
Theorem spread_ok h k : plain_machine h -> usable_nodes h <> [] ->
  let m := length (usable_nodes h) in
  length (spread_threads h (fun _ => 0) k) = k /\
  forall i, (i < k)%nat -> exists cpus, nth i (spread_threads h (fun _ => 0) k) None = Some cpus /\ cpus <> [] /\
    forall c, In c cpus <-> 0 <= c /\ h_cpu h (nth (i mod m) (usable_nodes h) (-1)) c = true.
Proof.
  intros P N. cbv zeta. assert (HL : (0 < length (usable_nodes h))%nat) by (destruct (usable_nodes h); [contradiction|cbn; lia]).
  assert (E : spread_threads h (fun _ => 0) k = map (fun j => Some (nth (j mod length (usable_nodes h)) (map (cpuset h) (usable_nodes h)) [])) (seq 0 k)).
  { unfold spread_threads. rewrite cpusets_eq by apply P. rewrite <- (map_length (cpuset h)) in HL. rewrite <- (map_length (cpuset h)).
    rewrite <- (spread_all h); auto.
    - destruct (map (cpuset h) (usable_nodes h)); [cbn in HL; lia|reflexivity].
    - intros s Hs. apply in_map_iff in Hs. destruct Hs as (n & <- & Hn). apply cpuset_plain; auto. now apply in_usable. }
  rewrite E, map_length, seq_length. split; auto. intros i Hi. set (j := (i mod length (usable_nodes h))%nat). assert (Hj : (j < length (usable_nodes h))%nat) by (apply Nat.mod_upper_bound; lia).
  exists (cpuset h (nth j (usable_nodes h) (-1))). split.
  - set (g := fun j0 => Some (nth (j0 mod length (usable_nodes h)) (map (cpuset h) (usable_nodes h)) [])). rewrite (nth_indep (map g (seq 0 k)) None (g 0%nat)) by (rewrite map_length, seq_length; lia).
    rewrite map_nth, seq_nth by lia. unfold g. rewrite Nat.add_0_l. fold j. f_equal. rewrite (nth_indep _ [] (cpuset h (-1))) by (rewrite map_length; auto). apply map_nth.
  - assert (U : usable h (nth j (usable_nodes h) (-1))) by (apply in_usable, nth_In; auto). destruct (cpuset_plain h _ P U) as (A & B & _). auto.
Qed.

Lemma spread_tail h faults sets k : forall i a, (a < k)%nat -> nth a (spread h faults sets k i) None = None -> forall b, (a <= b)%nat -> nth b (spread h faults sets k i) None = None.
Proof.
  assert (R : forall n b, nth b (repeat (@None (list Z)) n) None = None) by (induction n as [|n IH]; intros [|b]; cbn; auto).
  induction k as [|k IH]; intros i a Ha HN b Hb; [lia|]. cbn [spread] in *. destruct (negb _); [apply R|]. destruct a as [|a]; [discriminate HN|]. destruct b as [|b]; [lia|]. cbn [nth] in *.
  apply (IH (S i) a); auto; lia.
Qed.
Theorem spread_stops h faults k i : (i < k)%nat -> nth i (spread_threads h faults k) None = None -> forall j, (i <= j)%nat -> nth j (spread_threads h faults k) None = None.
Proof.
  unfold spread_threads. assert (R : forall n b, nth b (repeat (@None (list Z)) n) None = None) by (induction n as [|n IH]; intros [|b]; cbn; auto).
  destruct (get_numa_cpusets h) as [|s l]; [intros; apply R|]. apply spread_tail.
Qed.

Theorem balanced m k j : (0 < m)%nat -> (j < m)%nat -> let n := length (filter (fun i => i mod m =? j)%nat (seq 0 k)) in (k / m <= n <= k / m + 1)%nat.
Proof.
  intros Hm Hj. cbv zeta.
  assert (A : forall k, length (filter (fun i => i mod m =? j)%nat (seq 0 k)) = (k / m + if j <? k mod m then 1 else 0)%nat).
  { clear k. induction k as [|k IH].
    - rewrite Nat.div_small, Nat.mod_small by lia. reflexivity.
    - rewrite seq_S, filter_app, app_length, IH. cbn [filter Nat.add]. pose proof (Nat.div_mod k m ltac:(lia)) as D. pose proof (Nat.mod_upper_bound k m ltac:(lia)) as B.
      set (q := (k / m)%nat) in *. set (r := (k mod m)%nat) in *.
      destruct (Nat.eq_dec (S r) m) as [E|E].
      + assert (Q : (S k / m = S q)%nat) by (symmetry; apply (Nat.div_unique (S k) m (S q) 0); nia). assert (R : (S k mod m = 0)%nat) by (symmetry; apply (Nat.mod_unique (S k) m (S q) 0); nia).
        rewrite Q, R. destruct (Nat.eqb_spec r j), (Nat.ltb_spec j r), (Nat.ltb_spec j 0); cbn [length]; lia.
      + assert (Q : (S k / m = q)%nat) by (symmetry; apply (Nat.div_unique (S k) m q (S r)); nia). assert (R : (S k mod m = S r)%nat) by (symmetry; apply (Nat.mod_unique (S k) m q (S r)); nia).
        rewrite Q, R. destruct (Nat.eqb_spec r j), (Nat.ltb_spec j r), (Nat.ltb_spec j (S r)); cbn [length]; lia. }
  rewrite A. destruct (j <? k mod m)%nat; lia.
Qed.

Lemma filter_nth {A} (f : A -> bool) (d : A) (l : list A) : length (filter f l) = length (filter (fun i => f (nth i l d)) (seq 0 (length l))).
Proof.
  induction l as [|a l IH] using rev_ind; [reflexivity|]. rewrite app_length, filter_app, app_length. cbn [length]. rewrite Nat.add_1_r, seq_S, filter_app, app_length, Nat.add_0_l. f_equal.
  - rewrite IH. f_equal. apply filter_ext_in. intros i Hi. apply in_seq in Hi. now rewrite app_nth1 by lia.
  - cbn [filter]. rewrite app_nth2, Nat.sub_diag by lia. cbn [nth]. now destruct (f a).
Qed.
Lemma below_nodup n : NoDup (cpus_below n).
Proof. unfold cpus_below. apply Injective_map_NoDup; [intros a b; apply Nat2Z.inj|apply seq_NoDup]. Qed.
Theorem balanced_nodes h k n n' : plain_machine h -> disjoint_nodes h -> usable h n -> usable h n' ->
  (threads_on h n (spread_threads h (fun _ => 0%Z) k) <= threads_on h n' (spread_threads h (fun _ => 0%Z) k) + 1)%nat.
Proof.
  intros P D U U'. set (m := length (usable_nodes h)).
  assert (NE : usable_nodes h <> []) by (intros E; apply in_usable in U; rewrite E in U; destruct U).
  assert (Hm : (0 < m)%nat) by (unfold m; destruct (usable_nodes h); [contradiction|cbn; lia]).
  destruct (spread_ok h k P NE) as (L & N). fold m in N. set (l := spread_threads h (fun _ => 0) k) in *.
  assert (A : forall x, usable h x -> (k / m <= threads_on h x l <= k / m + 1)%nat).
  { intros x Ux. apply in_usable in Ux. destruct (In_nth _ _ (-1) Ux) as (j & Hj & Ej). fold m in Hj. unfold threads_on. rewrite (filter_nth _ None), L.
    replace (filter (fun i => runs_on h x (nth i l None)) (seq 0 k)) with (filter (fun i => i mod m =? j)%nat (seq 0 k)); [now apply balanced|].
    apply filter_ext_in. intros i Hi. apply in_seq in Hi. destruct (N i ltac:(lia)) as (cpus & E & NC & C). rewrite E. cbn [runs_on].
    destruct (Nat.eqb_spec (i mod m) j) as [Q|Q]; symmetry.
    - apply forallb_forall. intros c Hc. apply C in Hc. rewrite Q, Ej in Hc. apply Hc.
    - apply not_true_iff_false. intros F. rewrite forallb_forall in F. destruct cpus as [|c cpus]; [contradiction|].
      pose proof (F c ltac:(now left)) as F1. pose proof (proj1 (C c) ltac:(now left)) as [_ F2]. pose proof (D _ _ _ F1 F2) as E2. rewrite <- Ej in E2. apply Q. symmetry.
      assert (ND : NoDup (usable_nodes h)) by (apply NoDup_filter, below_nodup).
      rewrite (NoDup_nth _ (-1)) in ND. apply ND; auto. apply Nat.mod_upper_bound. lia. }
  pose proof (A n U). pose proof (A n' U'). lia.
Qed.

Lemma bit_test arg b : 0 <= b -> negb (Z.land arg (Z.shiftl 1 b) =? 0) = Z.testbit arg b.
Proof.
  intros Hb. destruct (Z.testbit arg b) eqn:T.
  - destruct (Z.eqb_spec (Z.land arg (Z.shiftl 1 b)) 0) as [E|]; [|reflexivity]. exfalso. apply (f_equal (fun x => Z.testbit x b)) in E.
    rewrite Z.land_spec, Z.shiftl_spec, Z.sub_diag, T, Z.bits_0 in E by lia. discriminate E.
  - replace (Z.land arg (Z.shiftl 1 b)) with 0; [reflexivity|]. symmetry. apply Z.bits_inj'. intros i Hi. rewrite Z.land_spec, Z.shiftl_spec, Z.bits_0 by lia.
    destruct (Z.eq_dec i b) as [->|N]; [now rewrite T|]. rewrite andb_comm. destruct (Z.ltb_spec i b); [now rewrite Z.testbit_neg_r by lia|]. rewrite Z.bits_above_log2; [reflexivity|lia|cbn; lia].
Qed.
Lemma test_bits_ok arg : 4 <= arg -> forall bits, (forall b, In b bits -> 0 <= b) -> forall pre, bits = pre ++ Z.log2 arg :: skipn (S (length pre)) bits -> (forall b, In b pre -> Z.log2 arg < b) ->
  test_bits arg bits = Z.log2 arg.
Proof.
  intros HA. induction bits as [|b bits IH]; intros HB pre E HP; [now destruct pre|].
  cbn [test_bits]. rewrite bit_test by (apply HB; now left). destruct pre as [|p pre].
  - cbn [app] in E. injection E as E1. subst b. rewrite Z.bit_log2 by lia. assert (2 <= Z.log2 arg) by (change 2 with (Z.log2 4); apply Z.log2_le_mono; lia). destruct (Z.eqb_spec (Z.log2 arg) 1); lia.
  - cbn [app length skipn] in E. injection E as E1 E2. subst p. rewrite Z.bits_above_log2 by (try lia; apply HP; now left). apply (IH ltac:(intros; apply HB; now right) pre); auto. intros; apply HP; now right.
Qed.
Theorem log2_ok n : 4 <= n < 2 ^ 32 -> 2 ^ STATIC_LOG2_VALUE n <= n < 2 ^ (STATIC_LOG2_VALUE n + 1).
Proof.
  intros H. assert (L : 2 <= Z.log2 n <= 31). { split; [change 2 with (Z.log2 4); apply Z.log2_le_mono; lia|]. apply Z.lt_succ_r. apply Z.log2_lt_pow2; lia. }
  assert (E : STATIC_LOG2_VALUE n = Z.log2 n).
  { unfold STATIC_LOG2_VALUE. set (bits := [31; 30; 29; 28; 27; 26; 25; 24; 23; 22; 21; 20; 19; 18; 17; 16; 15; 14; 13; 12; 11; 10; 9; 8; 7; 6; 5; 4; 3; 2; 1]).
    apply test_bits_ok with (pre := firstn (Z.to_nat (31 - Z.log2 n)) bits); try lia.
    - intros b Hb. unfold bits in Hb. repeat (destruct Hb as [<-|Hb]; [lia|]). destruct Hb.
    - set (l := Z.log2 n) in *. assert (In l bits). { unfold bits. cbn [In]. lia. } clearbody l. clear H.
      cbn [In bits] in H0. repeat (destruct H0 as [<-|H0]; [reflexivity|]). destruct H0.
    - set (l := Z.log2 n) in *. assert (In l bits). { unfold bits. cbn [In]. lia. } clearbody l. clear H. intros b Hb.
      cbn [In bits] in H0. repeat (destruct H0 as [<-|H0]; [cbn in Hb; repeat (destruct Hb as [<-|Hb]; [lia|]); try destruct Hb|]); try destruct H0. }
  rewrite E. pose proof (Z.log2_spec n ltac:(lia)) as S. unfold Z.succ in S. exact S.
Qed.
