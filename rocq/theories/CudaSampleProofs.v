(** Proofs about the CUDA sample program. *)
From Coq Require Import ZArith List Bool Lia Permutation.
From Verif Require Import SpecBits SpecCrc Spec842 CBase BitsLemmas SerialCompModel SerialDecompModel OptCompModel ConcLib SpecSync OclModel SpecOcl SpecCalls CudaModel CudaProofs GpuModel GpuProofs GpuCuda
  OptComp OptProps OclProps SampleModel SampleProofs InplaceItems OclItems CudaSampleModel SpecCudaSample.
Import ListNotations.
Open Scope Z_scope.

(** * The padded length *)
Lemma align_down x k : 0 <= k < 64 -> 0 <= x < 2 ^ 64 -> Z.land x (u64 (Z.lnot (2 ^ k - 1))) = 2 ^ k * (x / 2 ^ k).
Proof.
  intros Hk Hx. rewrite Z.mul_comm, <- Z.shiftr_div_pow2, <- Z.shiftl_mul_pow2, <- Z.ldiff_ones_r by lia.
  apply Z.bits_inj'. intros i Hi. rewrite Z.land_spec, Z.ldiff_spec. unfold u64.
  destruct (Z.lt_ge_cases i 64).
  - rewrite Z.mod_pow2_bits_low by lia. rewrite Z.lnot_spec by lia. rewrite Z.ones_equiv, <- Z.sub_1_r. reflexivity.
  - assert (B : Z.testbit x i = false).
    { destruct (Z.eq_dec x 0) as [->|N]; [apply Z.bits_0|]. apply Z.bits_above_log2; [lia|]. enough (Z.log2 x < 64) by lia. apply Z.log2_lt_pow2; lia. }
    rewrite B. reflexivity.
Qed.
Lemma padding a b n : 0 <= a -> 0 <= b -> a + b < 50 -> 0 <= n < 2 ^ 63 ->
  cu_nextMultipleOfChunkSize (2 ^ a) (2 ^ b) n = next_multiple (1024 * 2 ^ a * 2 ^ b) n.
Proof.
  intros Ha Hb HAB Hn. unfold cu_nextMultipleOfChunkSize, next_multiple. change 1024 with (2 ^ 10). rewrite <- !Z.pow_add_r by lia. set (k := 10 + a + b).
  assert (1 <= 2 ^ k) by (pose proof (Z.pow_pos_nonneg 2 k); lia). assert (2 ^ k <= 2 ^ 60) by (apply Z.pow_le_mono_r; lia).
  change (2 ^ 60) with 1152921504606846976 in *. change (2 ^ 63) with 9223372036854775808 in *.
  replace (u64 (n + (2 ^ k - 1))) with (n + 2 ^ k - 1) by (unfold u64; rewrite Z.mod_small; change (2 ^ 64) with 18446744073709551616; lia).
  apply align_down; [lia|]. change (2 ^ 64) with 18446744073709551616. lia.
Qed.
Lemma next_multiple_ge s n : 0 < s -> n <= next_multiple s n < n + s.
Proof. intros Hs. unfold next_multiple. pose proof (Z.div_mod (n + s - 1) s ltac:(lia)). pose proof (Z.mod_pos_bound (n + s - 1) s Hs). lia. Qed.

(** * The launch *)
Lemma tchunk_full W x out c : lenZ (x c) = W -> tchunk W x out c = x c.
Proof. intros H. unfold tchunk. rewrite H, Z.sub_diag. unfold bytes_at. cbn [Z.to_nat firstn slice]. unfold slice. cbn [firstn]. apply app_nil_r. Qed.
Lemma cu_launch_ok W inp n x out sched : 0 <= W <= 1024 -> 0 <= n <= 2 ^ 25 -> is_bytes inp -> lenZ inp mod 8 = 0 ->
  (forall c, 0 <= c < n -> lenZ (x c) = W /\ exists rest, stream false [] (bytes_bits (skipn (Z.to_nat (2048 * (c mod 2 ^ 24))) inp)) (x c) rest) ->
  is_bytes out -> 1024 * n + W <= lenZ out + 1024 -> lenZ out < 2 ^ 63 ->
  let r := cu_launch inp out n sched in
  (r = NoFuel \/ exists out', r = Done out' /\ is_bytes out' /\ length out' = length out /\
     (forall c, 0 <= c < n -> bytes_at out' (1024 * c) W = x c) /\ (forall p, 1024 * n + W <= Z.of_nat p + 1024 -> nth p out' 0 = nth p out 0)) /\
  (lets_threads_run 2176 n sched -> r <> NoFuel).
Proof.
  intros HW Hn Hi H8 Hx Ho HM HM2 r. destruct (cuda_glaunch W inp n x out HW Hn Hi H8) with (sched := sched) as [A B]; auto.
  { intros c Hc. destruct (Hx c Hc) as [E ?]. split; [lia|auto]. }
  unfold r, cu_launch. split.
  - destruct A as [->|(out' & -> & A1 & A2 & A3 & A4)]; [now left|right]. exists out'. repeat (split; auto). intros c Hc. rewrite (A3 c Hc). apply tchunk_full. now apply Hx.
  - intros HT. specialize (B HT). destruct (glaunch _ _); cbn [bind]; try discriminate. congruence.
Qed.

(** * Compressing *)
Lemma cu_compress_run e iaddr oaddr inp order : forall out, cu_compress e iaddr oaddr inp order out = sample_run (sample_always e 1024 iaddr oaddr inp) order out.
Proof. induction order as [|c order IH]; intros out; cbn [cu_compress sample_run]; [reflexivity|]. change (cu_compress_chunk e iaddr oaddr inp c out) with (sample_always e 1024 iaddr oaddr inp c out).
  destruct (sample_always e 1024 iaddr oaddr inp c out); cbn [bind]; auto. Qed.
Definition holds (inp comp : list Z) (n : Z) : Prop :=
  forall c, 0 <= c < n -> exists rest, stream false [] (bytes_bits (skipn (Z.to_nat (2048 * c)) comp)) (bytes_at inp (1024 * c) 1024) rest.
Lemma cu_compress_ok e iaddr oaddr inp n order out : iaddr mod 8 = 0 -> oaddr mod 8 = 0 -> is_bytes inp -> 0 <= n -> lenZ inp = 1024 * n ->
  Permutation order (chunk_numbers n) -> is_bytes out -> lenZ out = 2048 * n ->
  exists comp, cu_compress e iaddr oaddr inp order out = Done comp /\ is_bytes comp /\ lenZ comp = 2048 * n /\ holds inp comp n.
Proof.
  intros HA HB Hi Hn LI P Ho LO. rewrite cu_compress_run. destruct (numbers_perm order n P) as [ND IN].
  destruct (sample_run_ok (sample_always e 1024 iaddr oaddr inp) 2048 n
    (fun c w => exists k, k mod 8 = 0 /\ 0 <= k <= 1024 * 2 - 48 /\ denotes_842 (firstn (Z.to_nat k) w) (bytes_at inp (1024 * c) 1024)) ltac:(lia) Hn) with (order := order) (out := out) as (comp & E & B & L & Q & _); auto.
  - intros c o Hc Bo Lo. destruct (sample_always_ok e 1024 ltac:(reflexivity) ltac:(lia) iaddr oaddr inp c n o) as (w & A1 & A2 & A3 & A4); auto; lia || idtac.
    exists w. auto.
  - intros c Hc. now apply IN.
  - exists comp. repeat (split; auto). intros c Hc. destruct (Q c (proj2 (IN c) Hc)) as (k & _ & K & rest & S & _).
    assert (LB : lenZ (bytes_at comp (2048 * c) 2048) = 2048) by (apply bytes_at_len; lia).
    eapply starts_stream; [|exact S]. rewrite firstn_length. unfold lenZ in LB. replace (Nat.min (Z.to_nat k) (length (bytes_at comp (2048 * c) 2048))) with (Z.to_nat k) by lia.
    unfold bytes_at, slice. rewrite firstn_firstn. f_equal. lia.
Qed.

(** * Decompressing *)
Lemma bytes_at_app_l (a d : list Z) p n : 0 <= p -> 0 <= n -> p + n <= lenZ a -> bytes_at (a ++ d) p n = bytes_at a p n.
Proof.
  intros Hp Hn H. unfold bytes_at, slice, lenZ in *. rewrite skipn_app, firstn_app, skipn_length.
  replace (Z.to_nat n - (length a - Z.to_nat p))%nat with O by lia. cbn [firstn]. apply app_nil_r.
Qed.
Lemma bytes_at_app_r (a d : list Z) p n : lenZ a <= p -> bytes_at (a ++ d) p n = bytes_at d (p - lenZ a) n.
Proof.
  intros H. unfold bytes_at, slice, lenZ in *. rewrite skipn_app, skipn_all2 by lia. cbn [app]. f_equal. f_equal. lia.
Qed.
Lemma bytes_at_firstn (l : list Z) k p n : 0 <= p -> 0 <= n -> p + n <= Z.of_nat k -> bytes_at (firstn k l) p n = bytes_at l p n.
Proof. intros. unfold bytes_at, slice. rewrite skipn_firstn_comm, firstn_firstn. f_equal. lia. Qed.
Lemma eqb_true (l : list Z) : list_eqb l l = true.
Proof. now apply list_eqb_eq. Qed.
Lemma rep0 k : is_bytes (repeat 0 k). Proof. induction k; cbn [repeat]; constructor; auto. split; lia. Qed.
Section Params.
Variables (e : endian) (a b : Z).
Hypothesis Ha : 0 <= a < 32.
Hypothesis Hb : 0 <= b.
Hypothesis Hab : 1 <= a + b <= 24.
Let cpk := 2 ^ a * 2 ^ b.
Lemma cpk_pos : 0 < 2 ^ a < 2 ^ 32 /\ 0 < 2 ^ b /\ 2 <= cpk <= 2 ^ 24.
Proof.
  unfold cpk. rewrite <- Z.pow_add_r by lia. split; [split; [apply Z.pow_pos_nonneg; lia|apply Z.pow_lt_mono_r; lia]|]. split; [apply Z.pow_pos_nonneg; lia|].
  split; [change 2 with (2 ^ 1) at 1|]; apply Z.pow_le_mono_r; lia.
Qed.
Lemma kernel_threads : u32 (cpk / 2 ^ b) * 2 ^ b = cpk.
Proof. destruct cpk_pos as (A & B & _). unfold cpk. rewrite Z.div_mul by lia. unfold u32. rewrite Z.mod_small by lia. reflexivity. Qed.
Lemma grid_threads n : 0 <= n < 2 ^ 32 -> n mod cpk = 0 -> u32 (n / 2 ^ b) * 2 ^ b = n.
Proof.
  intros Hn H. destruct cpk_pos as (A & B & _). apply Z.div_exact in H; [|unfold cpk; nia]. set (q := n / cpk) in H.
  assert (Q : n = (2 ^ a * q) * 2 ^ b) by (rewrite H; unfold cpk; ring). rewrite Q at 1. rewrite Z.div_mul by lia. unfold u32. rewrite Z.mod_small by nia. lia.
Qed.

Lemma launches_ok inp comp n scheds : is_bytes comp -> lenZ comp = 2048 * n -> is_bytes inp -> lenZ inp = 1024 * n -> 1024 * n < 2 ^ 63 -> holds inp comp n ->
  forall fuel i dec, 0 <= i <= n -> (n - i) mod cpk = 0 -> (Z.to_nat (n - i) < fuel)%nat -> is_bytes dec -> lenZ dec = 1024 * n ->
  (forall c, 0 <= c < i -> bytes_at dec (1024 * c) 1024 = bytes_at inp (1024 * c) 1024) ->
  let r := cu_launches (2 ^ a) (2 ^ b) fuel comp n i scheds dec in
  (r = NoFuel \/ r = Done inp) /\ ((forall i, 0 <= i < n -> i mod cpk = n mod cpk -> lets_threads_run 2176 cpk (scheds i)) -> r = Done inp).
Proof.
  intros Bc Lc Bi Li Hn HS. destruct cpk_pos as (_ & _ & CP). induction fuel as [|fuel IH]; intros i dec Hi Hm Hf Bd Ld HD; [lia|].
  cbn [cu_launches]. destruct (Z.ltb_spec i n) as [LT|GE].
  - fold cpk. rewrite kernel_threads. change (1024 / 8) with 128. replace (8 * (i * 128 * 2)) with (2048 * i) by lia. replace (8 * (i * 128)) with (1024 * i) by lia.
    assert (IC : i + cpk <= n). { apply Z.div_exact in Hm; [|lia]. assert (1 <= (n - i) / cpk); nia. }
    assert (LS : lenZ (skipn (Z.to_nat (1024 * i)) dec) = 1024 * n - 1024 * i) by (unfold lenZ in *; rewrite skipn_length; lia).
    assert (LF : lenZ (firstn (Z.to_nat (1024 * i)) dec) = 1024 * i) by (unfold lenZ in *; rewrite firstn_length; lia).
    destruct (cu_launch_ok 1024 (skipn (Z.to_nat (2048 * i)) comp) cpk (fun c => bytes_at inp (1024 * (i + c)) 1024) (skipn (Z.to_nat (1024 * i)) dec) (scheds i)) as [A B]; try lia.
    { now apply is_bytes_skipn. }
    { unfold lenZ in *. rewrite skipn_length, Nat2Z.inj_sub, Lc, Z2Nat.id by lia. replace (2048 * n - 2048 * i) with (256 * (n - i) * 8) by lia. apply Z.mod_mul. lia. }
    { intros c Hc. rewrite Z.mod_small by lia. split; [apply bytes_at_len; lia|]. destruct (HS (i + c) ltac:(lia)) as (rest & S). exists rest.
      rewrite skipn_add. replace (Z.to_nat (2048 * i) + Z.to_nat (2048 * c))%nat with (Z.to_nat (2048 * (i + c))) by lia. exact S. }
    { now apply is_bytes_skipn. }
    destruct A as [A|(d & A & Bd' & Ld' & CD & _)]; rewrite A; cbn [bind].
    + split; [now left|]. intros HT. elim B; auto. apply HT; [lia|]. symmetry. apply Z.mod_divide in Hm; [|lia]. destruct Hm as [q Q]. replace n with (i + q * cpk) by lia. now rewrite Z.mod_add by lia.
    + apply IH; try lia.
      * replace (n - (i + cpk)) with (n - i + (-1) * cpk) by lia. now rewrite Z.mod_add by lia.
      * apply is_bytes_app. split; [now apply is_bytes_firstn|auto].
      * unfold lenZ in *. rewrite app_length. lia.
      * intros c Hc. destruct (Z.lt_ge_cases c i).
        -- rewrite bytes_at_app_l, bytes_at_firstn by lia. apply HD. lia.
        -- rewrite bytes_at_app_r, LF by lia. replace (1024 * c - 1024 * i) with (1024 * (c - i)) by lia. rewrite CD by lia. do 2 f_equal. lia.
  - assert (E : dec = inp). { apply (chunks_all 1024 n); auto; [lia|]. intros c Hc. apply HD. lia. }
    rewrite E. split; auto.
Qed.

Lemma core_unified iaddr oaddr order scheds inp n : iaddr mod 8 = 0 -> oaddr mod 8 = 0 -> is_bytes inp -> lenZ inp = 1024 * n -> 0 < n -> n mod cpk = 0 -> 1024 * n < 2 ^ 63 ->
  Permutation order (chunk_numbers n) ->
  let r := cu_core e (2 ^ a) (2 ^ b) true iaddr oaddr order scheds inp in
  (r = Done true \/ r = NoFuel) /\ ((forall i, lets_threads_run 2176 cpk (scheds i)) -> r = Done true).
Proof.
  intros HA HB Bi Li Hn Hm HL P. destruct cpk_pos as (_ & _ & CP). assert (cpk <= n). { apply Z.div_exact in Hm; [|lia]. assert (1 <= n / cpk); nia. }
  unfold cu_core. rewrite Li. destruct (Z.gtb_spec (1024 * n) 1024); [|lia]. replace (1024 * n / 1024) with n by (rewrite Z.mul_comm, Z.div_mul; lia).
  destruct (cu_compress_ok e iaddr oaddr inp n order (repeat 0 (Z.to_nat (1024 * n * 2)))) as (comp & -> & Bc & Lc & HS); auto; try lia; try apply rep0.
  { unfold lenZ. rewrite repeat_length. lia. }
  rewrite bind_done. destruct (launches_ok inp comp n scheds Bc Lc Bi Li HL HS (S (Z.to_nat n)) 0 (repeat 0 (Z.to_nat (1024 * n)))) as [A B]; try lia; try apply rep0.
  { now rewrite Z.sub_0_r. } { unfold lenZ. rewrite repeat_length. lia. }
  assert (FI : firstn (Z.to_nat (1024 * n)) inp = inp) by (apply firstn_all2; unfold lenZ in Li; lia).
  split.
  - destruct A as [A|A]; rewrite A; cbn [bind]; [now right|left]. now rewrite FI, eqb_true.
  - intros HT. rewrite B by auto. cbn [bind]. now rewrite FI, eqb_true.
Qed.
Lemma core_default iaddr oaddr order scheds inp n : iaddr mod 8 = 0 -> oaddr mod 8 = 0 -> is_bytes inp -> lenZ inp = 1024 * n -> 0 < n <= 2 ^ 25 -> n mod cpk = 0 ->
  Permutation order (chunk_numbers n) ->
  let r := cu_core e (2 ^ a) (2 ^ b) false iaddr oaddr order scheds inp in
  (r = NoFuel \/ exists ok, r = Done ok /\ (ok = true <-> forall c, 0 <= c < n -> bytes_at inp (1024 * c) 1024 = bytes_at inp (1024 * (c mod 2 ^ 24)) 1024)) /\
  (lets_threads_run 2176 n (scheds 0) -> r <> NoFuel).
Proof.
  intros HA HB Bi Li Hn Hm P. destruct cpk_pos as (_ & _ & CP). assert (cpk <= n). { apply Z.div_exact in Hm; [|lia]. assert (1 <= n / cpk); nia. }
  unfold cu_core. rewrite Li. destruct (Z.gtb_spec (1024 * n) 1024); [|lia]. replace (1024 * n / 1024) with n by (rewrite Z.mul_comm, Z.div_mul; lia).
  destruct (cu_compress_ok e iaddr oaddr inp n order (repeat 0 (Z.to_nat (1024 * n * 2)))) as (comp & -> & Bc & Lc & HS); auto; try lia; try apply rep0.
  { unfold lenZ. rewrite repeat_length. lia. }
  rewrite bind_done. rewrite grid_threads by (auto; lia).
  assert (MB : forall c, 0 <= c < n -> 0 <= c mod 2 ^ 24 < n).
  { intros c Hc. pose proof (Z.mod_pos_bound c (2 ^ 24) ltac:(lia)). pose proof (Z.mod_le c (2 ^ 24) ltac:(lia) ltac:(lia)). lia. }
  destruct (cu_launch_ok 1024 comp n (fun c => bytes_at inp (1024 * (c mod 2 ^ 24)) 1024) (repeat 0 (Z.to_nat (1024 * n))) (scheds 0)) as [A B]; try lia; auto; try apply rep0.
  { rewrite Lc. replace (2048 * n) with (256 * n * 8) by lia. apply Z.mod_mul. lia. }
  { intros c Hc. specialize (MB c Hc). split; [apply bytes_at_len; lia|]. apply HS. lia. }
  { unfold lenZ. rewrite repeat_length. lia. } { unfold lenZ. rewrite repeat_length. lia. }
  split.
  - destruct A as [->|(d & -> & Bd & Ld & CD & _)]; cbn [bind]; [now left|right]. rewrite repeat_length in Ld. eexists. split; [reflexivity|].
    rewrite firstn_all2 by lia. rewrite list_eqb_eq. split.
    + intros -> c Hc. rewrite <- CD by lia. reflexivity.
    + intros HC. apply (chunks_all 1024 n); auto; [lia|unfold lenZ; lia|]. intros c Hc. rewrite CD by lia. symmetry. auto.
  - intros HT. specialize (B HT). destruct (cu_launch _ _ _ _); cbn [bind]; try discriminate. congruence.
Qed.
End Params.

(** * The program *)
Lemma next_multiple_div s n : 0 < s -> 0 < n -> s <= next_multiple s n /\ next_multiple s n mod s = 0.
Proof.
  intros Hs Hn. unfold next_multiple. split; [|rewrite Z.mul_comm; apply Z.mod_mul; lia].
  enough (1 <= (n + s - 1) / s) by nia. apply Z.div_le_lower_bound; lia.
Qed.
Section Program.
Variables (e : endian) (a b : Z).
Hypothesis Ha : 0 <= a.
Hypothesis Hb : 0 <= b.
Hypothesis Hab : 1 <= a + b <= 24.
Let size := 1024 * 2 ^ a * 2 ^ b.
Variables (iaddr oaddr : Z).
Hypothesis Hi : iaddr mod 8 = 0.
Hypothesis Ho : oaddr mod 8 = 0.
Lemma size_ok : 2048 <= size <= 2 ^ 34 /\ (2 ^ 34) mod size = 0.
Proof.
  destruct (cpk_pos a b ltac:(lia) Hb Hab) as (A & B & C). unfold size. split; [nia|].
  rewrite <- Z.mul_assoc, <- Z.pow_add_r by lia. change 1024 with (2 ^ 10). rewrite <- Z.pow_add_r by lia.
  replace 34 with (34 - (10 + (a + b)) + (10 + (a + b))) by lia. rewrite Z.pow_add_r by lia. apply Z.mod_mul. pose proof (Z.pow_pos_nonneg 2 (10 + (a + b))). lia.
Qed.
Lemma file_buffer file : 0 < lenZ file < 2 ^ 62 -> is_bytes file ->
  let inp := padded_file size file in let n := next_multiple size (lenZ file) / 1024 in
  file ++ repeat 0 (Z.to_nat (cu_nextMultipleOfChunkSize (2 ^ a) (2 ^ b) (lenZ file) - lenZ file)) = inp /\
  is_bytes inp /\ lenZ inp = 1024 * n /\ 0 < n /\ n mod (2 ^ a * 2 ^ b) = 0 /\ 1024 * n < 2 ^ 63 /\ 1024 * n = next_multiple size (lenZ file).
Proof.
  intros HL HB inp n. destruct size_ok as [SZ _]. destruct (cpk_pos a b ltac:(lia) Hb Hab) as (_ & _ & CP). rewrite padding by lia. fold size.
  pose proof (next_multiple_ge size (lenZ file) ltac:(lia)) as G. destruct (next_multiple_div size (lenZ file) ltac:(lia) ltac:(lia)) as [D1 D2].
  assert (EN : next_multiple size (lenZ file) = 1024 * n /\ n mod (2 ^ a * 2 ^ b) = 0).
  { unfold n. assert (Q : next_multiple size (lenZ file) = (2 ^ a * 2 ^ b * ((lenZ file + size - 1) / size)) * 1024) by (unfold next_multiple, size; ring).
    rewrite Q. rewrite Z.div_mul by lia. split; [ring|]. rewrite Z.mul_comm. apply Z.mod_mul. lia. }
  destruct EN as [EN EM].
  assert (LI : lenZ inp = next_multiple size (lenZ file)). { unfold inp, padded_file. fold (lenZ file). unfold lenZ in *. rewrite app_length, repeat_length. lia. }
  split. { unfold inp, padded_file. fold (lenZ file). f_equal. f_equal. unfold lenZ in *. lia. }
  split. { apply is_bytes_app. split; auto. apply rep0. }
  split; [lia|]. split; [lia|]. split; auto. split; [|lia]. change (2 ^ 34) with 17179869184 in SZ. change (2 ^ 62) with 4611686018427387904 in HL. change (2 ^ 63) with 9223372036854775808. lia.
Qed.

Lemma sample_unified order scheds file : is_bytes file -> 0 < lenZ file < 2 ^ 62 -> Permutation order (chunk_numbers (next_multiple size (lenZ file) / 1024)) ->
  let r := cuda_sample e (2 ^ a) (2 ^ b) true iaddr oaddr order scheds [Some file] in
  (r = Done true \/ r = NoFuel) /\ ((forall i, lets_threads_run 2176 (2 ^ a * 2 ^ b) (scheds i)) -> r = Done true).
Proof.
  intros HB HL P. destruct (file_buffer file HL HB) as (E & BI & LI & N0 & NM & NB & _). cbv zeta in E. cbn [cuda_sample]. rewrite E.
  apply (core_unified e a b ltac:(lia) Hb Hab iaddr oaddr order scheds _ _ Hi Ho BI LI); auto.
Qed.
Lemma sample_default order scheds file : is_bytes file -> 0 < lenZ file <= 2 ^ 35 -> next_multiple size (lenZ file) <= 2 ^ 35 -> Permutation order (chunk_numbers (next_multiple size (lenZ file) / 1024)) ->
  let inp := padded_file size file in let n := next_multiple size (lenZ file) / 1024 in
  let r := cuda_sample e (2 ^ a) (2 ^ b) false iaddr oaddr order scheds [Some file] in
  (r = NoFuel \/ exists ok, r = Done ok /\ (ok = true <-> forall c, 0 <= c < n -> bytes_at inp (1024 * c) 1024 = bytes_at inp (1024 * (c mod 2 ^ 24)) 1024)) /\
  (lets_threads_run 2176 n (scheds 0) -> r <> NoFuel).
Proof.
  intros HB HL H35 P. destruct (file_buffer file ltac:(lia) HB) as (E & BI & LI & N0 & NM & NB & N2). cbv zeta in E. cbn [cuda_sample]. rewrite E.
  apply (core_default e a b ltac:(lia) Hb Hab iaddr oaddr order scheds _ _ Hi Ho BI LI); auto. lia.
Qed.
Lemma multiple_le M n : M mod size = 0 -> n <= M -> next_multiple size n <= M.
Proof.
  intros HM Hn. destruct size_ok as [S _]. apply Z.div_exact in HM; [|lia]. unfold next_multiple. rewrite HM at 1. apply Z.mul_le_mono_nonneg_l; [lia|].
  apply Z.lt_succ_r. apply Z.div_lt_upper_bound; lia.
Qed.
Lemma sample_default_ok order scheds file : is_bytes file -> 0 < lenZ file <= 2 ^ 34 -> Permutation order (chunk_numbers (next_multiple size (lenZ file) / 1024)) ->
  let r := cuda_sample e (2 ^ a) (2 ^ b) false iaddr oaddr order scheds [Some file] in
  (r = Done true \/ r = NoFuel) /\ (lets_threads_run 2176 (next_multiple size (lenZ file) / 1024) (scheds 0) -> r = Done true).
Proof.
  intros HB HL P r. destruct size_ok as [_ S]. pose proof (multiple_le (2 ^ 34) (lenZ file) S ltac:(lia)) as ML.
  destruct (file_buffer file ltac:(lia) HB) as (_ & _ & _ & _ & _ & _ & N2).
  destruct (sample_default order scheds file HB ltac:(lia) ltac:(lia) P) as [A B]. fold r in A, B.
  assert (A' : r = Done true \/ r = NoFuel).
  { destruct A as [A|(ok & A & EQ)]; [now right|left]. rewrite A. f_equal. apply EQ. intros c Hc. rewrite (Z.mod_small c) by lia. reflexivity. }
  split; auto. intros HT. destruct A' as [|C]; auto. elim (B HT C).
Qed.
Lemma sample_default_large order scheds file p : is_bytes file -> 2 ^ 34 <= p < lenZ file -> lenZ file <= 2 ^ 35 -> nth (Z.to_nat p) file 0 <> nth (Z.to_nat (p - 2 ^ 34)) file 0 ->
  Permutation order (chunk_numbers (next_multiple size (lenZ file) / 1024)) ->
  let r := cuda_sample e (2 ^ a) (2 ^ b) false iaddr oaddr order scheds [Some file] in
  (r = Done false \/ r = NoFuel) /\ (lets_threads_run 2176 (next_multiple size (lenZ file) / 1024) (scheds 0) -> r = Done false).
Proof.
  intros HB Hp HL NE P r. destruct size_ok as [SZ S].
  assert (S2 : (2 ^ 35) mod size = 0). { change (2 ^ 35) with (2 ^ 34 * 2). rewrite Z.mul_mod by lia. rewrite S. reflexivity. }
  pose proof (multiple_le (2 ^ 35) (lenZ file) S2 ltac:(lia)) as ML.
  destruct (file_buffer file ltac:(lia) HB) as (_ & BI & LI & _ & _ & _ & N2). pose proof (next_multiple_ge size (lenZ file) ltac:(lia)) as G.
  destruct (sample_default order scheds file HB ltac:(lia) ltac:(lia) P) as [A B]. fold r in A, B.
  set (n := next_multiple size (lenZ file) / 1024) in *. set (inp := padded_file size file) in *.
  assert (A' : r = Done false \/ r = NoFuel).
  { destruct A as [A|(ok & A & EQ)]; [now right|left]. rewrite A. f_equal. destruct ok; auto. exfalso. destruct EQ as [EQ _]. specialize (EQ eq_refl).
    set (c := p / 1024). pose proof (Z.div_mod p 1024 ltac:(lia)) as D. pose proof (Z.mod_pos_bound p 1024 ltac:(lia)) as M. fold c in D.
    assert (Hc : 2 ^ 24 <= c < n). { split; [apply Z.div_le_lower_bound; lia|]. unfold c. apply Z.div_lt_upper_bound; lia. }
    assert (CM : c mod 2 ^ 24 = c - 2 ^ 24). { replace c with (c - 2 ^ 24 + 1 * 2 ^ 24) at 1 by lia. rewrite Z.mod_add by lia. apply Z.mod_small. lia. }
    specialize (EQ c ltac:(lia)). rewrite CM in EQ. apply (f_equal (fun l => nth (Z.to_nat (p mod 1024)) l 0)) in EQ. unfold lenZ in LI, Hp.
    rewrite !nth_bytes_at in EQ by lia. apply NE.
    assert (NF : forall q, 0 <= q < Z.of_nat (length file) -> nth (Z.to_nat q) inp 0 = nth (Z.to_nat q) file 0).
    { intros q Hq. unfold inp, padded_file. apply app_nth1. lia. }
    rewrite <- !NF by lia. replace (Z.to_nat p) with (Z.to_nat (1024 * c) + Z.to_nat (p mod 1024))%nat by lia.
    replace (Z.to_nat (p - 2 ^ 34)) with (Z.to_nat (1024 * (c - 2 ^ 24)) + Z.to_nat (p mod 1024))%nat by lia. exact EQ. }
  split; auto. intros HT. destruct A' as [|C]; auto. elim (B HT C).
Qed.
End Program.

(** Without an argument. *)
Lemma sample_string e cpt tpb unified iaddr oaddr order scheds : iaddr mod 8 = 0 -> oaddr mod 8 = 0 ->
  let r := cuda_sample e cpt tpb unified iaddr oaddr order scheds [] in
  (r = Done true \/ r = NoFuel) /\ (lets_threads_run 2176 1 (scheds 0) -> r = Done true).
Proof.
  intros Hi Ho. cbn [cuda_sample]. unfold cu_core. change (lenZ cu_tmp) with 32. cbn [Z.gtb Z.compare Pos.compare Pos.compare_cont].
  change (32 * 2) with 64. change (32 ?= 1024) with Lt. cbv iota.
  assert (BT : is_bytes cu_tmp) by (apply is_bytes_b; vm_compute; reflexivity).
  set (comp0 := repeat 0 (Z.to_nat 64)). assert (B0 : is_bytes comp0) by apply rep0. assert (L0 : lenZ comp0 = 64) by reflexivity. clearbody comp0.
  pose proof (optsw842_compress_out e iaddr oaddr cu_tmp comp0 64 BT B0 ltac:(lia) Hi Ho eq_refl ltac:(discriminate)) as CO. cbv zeta in CO.
  assert (LZ : lenZ (opt_out cu_tmp) = 40) by (vm_compute; reflexivity). destruct (opt_denotes cu_tmp BT eq_refl) as (rest & ST & _). pose proof (opt_out_bytes cu_tmp) as BZ.
  set (z := opt_out cu_tmp) in *. clearbody z.
  destruct CO as [(_ & m & -> & F & BM)|(A & _)]; [|lia]. rewrite bind_done. destruct BM as (BB & LM & _). rewrite LZ.
  rewrite load_bytes_ok by (unfold lenZ in *; lia). rewrite bind_done.
  assert (EZ : slice (Z.to_nat 0) (Z.to_nat 40) m = z). { unfold slice. cbn [Z.to_nat skipn]. rewrite <- F. f_equal. unfold lenZ in LZ. lia. }
  rewrite EZ. rewrite store_bytes_ok by lia. rewrite bind_done.
  set (dv := if unified then m else splice comp0 (Z.to_nat 0) z).
  assert (DV : is_bytes dv /\ lenZ dv = 64 /\ slice 0 (length z) dv = z).
  { unfold dv. destruct unified.
    - split; auto. split; [unfold lenZ in *; lia|exact F].
    - unfold splice. cbn [Z.to_nat firstn app Nat.add]. split; [apply is_bytes_app; split; [exact BZ|now apply is_bytes_skipn]|].
      split; [unfold lenZ in *; rewrite app_length, skipn_length; lia|]. unfold slice. cbn [skipn]. now apply firstn_app_exact. }
  destruct DV as (BD & LD & SD).
  destruct (starts_stream dv 0 z cu_tmp rest SD ST) as (rest' & ST').
  destruct (cu_launch_ok 32 dv 1 (fun _ => cu_tmp) (repeat 0 (Z.to_nat 32)) (scheds 0)) as [A B]; try lia; auto; try apply rep0; try (rewrite LD; reflexivity).
  { intros c Hc. replace c with 0 by lia. split; [reflexivity|]. exists rest'. exact ST'. }
  { change (lenZ (repeat 0 (Z.to_nat 32))) with 32. lia. } { change (lenZ (repeat 0 (Z.to_nat 32))) with 32. lia. }
  destruct (cu_launch dv (repeat 0 (Z.to_nat 32)) 1 (scheds 0)) as [d| |]; cbn [bind].
  - destruct A as [A|(d' & A & _ & Ld & CD & _)]; [discriminate|]. injection A as <-. specialize (CD 0 ltac:(lia)). unfold bytes_at, slice in CD. change (Z.to_nat (1024 * 0)) with O in CD. cbn [skipn] in CD.
    rewrite CD, eqb_true. split; [now left|reflexivity].
  - destruct A as [A|(d' & A & _)]; discriminate.
  - split; [now right|]. intros HT. elim (B HT). reflexivity.
Qed.
Lemma sample_empty e cpt tpb unified iaddr oaddr order scheds : iaddr mod 8 = 0 -> oaddr mod 8 = 0 -> 0 < 1024 * cpt * tpb < 2 ^ 63 -> (exists k, 0 <= k /\ 1024 * cpt * tpb = 2 ^ k) ->
  cuda_sample e cpt tpb unified iaddr oaddr order scheds [Some []] = Undef.
Proof.
  intros Hi Ho HS (k & Hk & EK). cbn [cuda_sample app]. unfold cu_nextMultipleOfChunkSize. change (lenZ (@nil Z)) with 0. rewrite EK in *. rewrite Z.add_0_l.
  assert (K64 : k < 63). { apply (Z.pow_lt_mono_r_iff 2); lia. }
  replace (u64 (2 ^ k - 1)) with (2 ^ k - 1) by (unfold u64; rewrite Z.mod_small; change (2 ^ 63) with 9223372036854775808 in HS; change (2 ^ 64) with 18446744073709551616; lia).
  rewrite align_down by (change (2 ^ 63) with 9223372036854775808 in HS; change (2 ^ 64) with 18446744073709551616; lia). rewrite Z.div_small by lia.
  rewrite Z.mul_0_r. cbn [Z.sub Z.opp Z.add Z.to_nat repeat]. unfold cu_core. change (lenZ (@nil Z)) with 0. cbn [Z.mul Z.to_nat repeat Z.gtb Z.compare].
  rewrite (proj1 (c18_exact e iaddr oaddr [] [] 0 (Forall_nil _) (Forall_nil _) ltac:(cbn; lia))); auto.
Qed.
