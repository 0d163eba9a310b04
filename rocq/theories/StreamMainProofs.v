(** The sample program for the streams as a whole: proofs. *)
From Coq Require Import ZArith List Bool Lia Permutation.
From Verif Require Import SpecBits SpecCalls CBase BitsLemmas ConcLib SpecSync BarrierProofs ChunkedModel SpecChunked ChunkedProofs StreamBlockModel SpecBlock StreamBlockProofs SpecStream
  CompStreamModel StreamSampleModel SpecStreamSample StreamSampleProofs StreamSampleHonest StreamSampleAssert SpecOcl InplaceItems OclItems OclProps BenchModel SpecBench BenchProofs StreamMainModel SpecStreamMain.
From Verif Require StreamSampleComp.
Import ListNotations.
Open Scope Z_scope.

Lemma sum_app a b : sum (a ++ b) = sum a + sum b.
Proof. induction a as [|x a IH]; cbn [app sum fold_right]; [reflexivity|]. unfold sum in *. lia. Qed.
Lemma sum_perm a b : Permutation a b -> sum a = sum b.
Proof. induction 1; cbn [sum fold_right]; unfold sum in *; try lia. Qed.

(** The numbers of the chunks, block by block. *)
Lemma seq_shift_by a k : forall s, seq (a + s) k = map (fun j => (a + j)%nat) (seq s k).
Proof. induction k as [|k IH]; intros s; cbn [seq map]; [reflexivity|]. f_equal. rewrite <- IH. f_equal. lia. Qed.
Lemma numbers_blocks k w : seq 0 (w * k) = concat (map (fun i => map (fun j => (i * k + j)%nat) (seq 0 k)) (seq 0 w)).
Proof.
  induction w as [|w IH]; [reflexivity|]. rewrite seq_S, map_app, concat_app, <- IH. cbn [map concat]. rewrite app_nil_r.
  replace (S w * k)%nat with (w * k + k)%nat by lia. rewrite seq_app. f_equal. cbn [Nat.add]. rewrite <- (Nat.add_0_r (w * k)) at 1. apply seq_shift_by.
Qed.

Section Sizes.
Variable I : implementation.
Hypothesis ISC : as_single_calls (2 ^ 32) (i_compress I) (i_compress_chunked I).
Hypothesis IZ : forall n rets ia inp is il oa out os ol r a b c, i_compress_chunked I n rets ia inp is il oa out os ol = Done (r, a, b, c) -> r = 0.
Hypothesis IC : forall x, is_bytes x -> lenZ x = CHUNK_SIZE -> exists z, coded I CHUNK_SIZE x z.
Hypothesis IP : CHUNK_SIZE mod i_preferred I = 0.

(** The chunks of the block at [off]. *)
Definition block_chunks (inp : list Z) (off : Z) : list (list Z) := map (fun j => bytes_at inp (off + CHUNK_SIZE * Z.of_nat j) CHUNK_SIZE) (seq 0 16).

Lemma chunks_blocks inp : lenZ inp mod BLOCK_SIZE = 0 -> chunks_of CHUNK_SIZE inp = concat (map (block_chunks inp) (all_offsets (lenZ inp))).
Proof.
  intros M. unfold chunks_of, chunk_numbers, all_offsets. assert (B : BLOCK_SIZE = 16 * CHUNK_SIZE) by reflexivity. assert (CP : 0 < CHUNK_SIZE) by reflexivity.
  pose proof (Z.div_mod (lenZ inp) BLOCK_SIZE ltac:(lia)) as D. rewrite M, Z.add_0_r in D. set (w := lenZ inp / BLOCK_SIZE) in *.
  assert (W0 : 0 <= w) by (apply Z.div_pos; [apply lenZ_nonneg|lia]).
  replace (lenZ inp / CHUNK_SIZE) with (w * 16). 2: { rewrite D, B. rewrite <- (Z.div_mul (w * 16) CHUNK_SIZE) by lia. f_equal. lia. }
  replace (Z.to_nat (w * 16)) with (Z.to_nat w * 16)%nat by lia. rewrite numbers_blocks, !map_map, !concat_map, !map_map. f_equal. apply map_ext. intros i.
  unfold block_chunks. rewrite !map_map. apply map_ext. intros j. f_equal. rewrite B. lia.
Qed.

Lemma block_sizes inp iaddr crets cbuf off b : is_bytes inp -> block_offset (lenZ inp) off -> iaddr mod i_preferred I = 0 -> fst (cbuf off) mod i_preferred I = 0 ->
  is_bytes (snd (cbuf off)) -> lenZ (snd (cbuf off)) = BLOCK_SIZE -> length (crets off) = 16%nat ->
  the_block (i_compress_chunked I) inp iaddr crets cbuf off = Done b -> b_sizes b = map (stream_size I) (block_chunks inp off).
Proof.
  intros Hs (O1 & O2 & O3) AI AB Hb LB LR. unfold the_block, comp_handle_block. set (source := skipn (Z.to_nat off) inp). destruct (cbuf off) as [baddr buf]. cbn [fst snd] in *.
  assert (BS : is_bytes source) by now apply is_bytes_skipn.
  assert (LS : BLOCK_SIZE <= lenZ source) by (unfold source, lenZ in *; rewrite skipn_length; lia).
  assert (BE : BLOCK_SIZE = 16 * 65536) by reflexivity.
  assert (LV : forall j, live NUM_CHUNKS_PER_BLOCK (List.repeat CHUNK_SIZE 16) j <-> (j < 16)%nat).
  { intros j. unfold live. rewrite n16. split; [tauto|]. intros H. split; auto. rewrite nth_repeat16 by auto. discriminate. }
  assert (SL : forall j, (j < 16)%nat -> slice (Z.to_nat (Z.of_nat j * CHUNK_SIZE)) (Z.to_nat CHUNK_SIZE) source = bytes_at inp (off + CHUNK_SIZE * Z.of_nat j) CHUNK_SIZE).
  { intros j Hj. unfold bytes_at, slice, source. rewrite skipn_add. f_equal. f_equal. unfold CHUNK_SIZE. lia. }
  assert (XB : forall j, (j < 16)%nat -> let x := bytes_at inp (off + CHUNK_SIZE * Z.of_nat j) CHUNK_SIZE in is_bytes x /\ lenZ x = CHUNK_SIZE).
  { intros j Hj. cbv zeta. split; [now apply is_bytes_slice|]. apply bytes_at_len; unfold CHUNK_SIZE; lia. }
  assert (AD : forall a k, a mod i_preferred I = 0 -> (a + k * CHUNK_SIZE) mod i_preferred I = 0).
  { intros a k H. rewrite Z.mul_comm. now apply aligned_add. }
  assert (AO : (iaddr + off) mod i_preferred I = 0).
  { pose proof (Z.div_mod off BLOCK_SIZE ltac:(lia)) as D. rewrite O2, Z.add_0_r in D. rewrite D. replace (BLOCK_SIZE * (off / BLOCK_SIZE)) with (16 * (off / BLOCK_SIZE) * CHUNK_SIZE) by (unfold CHUNK_SIZE; lia). auto. }
  assert (SG : forall j, (j < 16)%nat -> exists r n z,
     single (i_compress I) (iaddr + off) source CHUNK_SIZE (List.repeat CHUNK_SIZE 16) baddr buf CHUNK_SIZE (List.repeat CHUNK_SIZE 16) j = Done (r, n, z) /\
     csize r n = stream_size I (bytes_at inp (off + CHUNK_SIZE * Z.of_nat j) CHUNK_SIZE)).
  { intros j Hj. destruct (XB j Hj) as [X1 X2]. destruct (IC _ X1 X2) as (z & CZ). unfold single. rewrite nth_repeat16, SL by auto. unfold stream_size. rewrite (coded_size I _ _ _ X1 X2 CZ).
    destruct CZ as (_ & HZ & _). rewrite HZ; try (unfold aligned; auto).
    - destruct (Z.leb_spec (lenZ z) CHUNK_SIZE).
      + exists 0, (lenZ z), z. split; [reflexivity|]. unfold csize. cbn [Z.eqb andb]. change COMPRESSIBLE_THRESHOLD with (CHUNK_SIZE - 24). reflexivity.
      + exists (- ENOSPC), 0, []. split; [reflexivity|]. reflexivity.
    - now apply is_bytes_slice.
    - unfold lenZ in *. rewrite slice_length; unfold CHUNK_SIZE in *; lia. }
  destruct (ISC NUM_CHUNKS_PER_BLOCK (crets off) (iaddr + off) source CHUNK_SIZE (List.repeat CHUNK_SIZE 16) baddr buf CHUNK_SIZE (List.repeat CHUNK_SIZE 16))
    as (ret & rets & olens & buf' & E & P & _ & LR' & LO' & LB' & BB' & _); auto.
  - unfold NUM_CHUNKS_PER_BLOCK, UINT_MAX. lia.
  - do 2 (split; [reflexivity|]). split; [unfold lenZ; rewrite LR; reflexivity|]. do 2 (split; [unfold CHUNK_SIZE; lia|]).
    intros j Hj. apply LV in Hj. rewrite nth_repeat16 by auto. rewrite LB. unfold CHUNK_SIZE in *. rewrite BE in *. lia.
  - unfold NUM_CHUNKS_PER_BLOCK, CHUNK_SIZE. lia.
  - unfold NUM_CHUNKS_PER_BLOCK, CHUNK_SIZE. lia.
  - intros j Hj. apply LV in Hj. destruct (SG j Hj) as (r & n & z & E & _). eauto.
  - assert (R0 : ret = 0) by (eapply IZ; exact E). rewrite E, bind_done, R0. cbn [Z.eqb negb]. rewrite repeat_length in LO'. rewrite LR in LR'.
    assert (LL : length rets = length olens) by congruence. destruct (chunk_sizes rets olens) as [sizes any] eqn:CZ. intros H. injection H as <-. cbn [b_sizes].
    assert (L16 : length sizes = 16%nat) by (destruct (chunk_sizes_nth rets olens 0 LL) as (A & _); rewrite CZ in A; cbn [fst] in A; congruence).
    apply (nth_ext _ _ 0 0); [rewrite map_length; unfold block_chunks; rewrite map_length, seq_length; exact L16|]. rewrite L16. intros j Hj.
    destruct (chunk_sizes_nth rets olens j LL) as (_ & B & _). rewrite CZ in B. cbn [fst] in B. rewrite LR' in B. rewrite (B Hj).
    specialize (P j (proj2 (LV j) Hj)). destruct (SG j Hj) as (r & n & z & E1 & S). rewrite E1 in P. unfold seen in P. injection P as <- <- _. rewrite S.
    unfold block_chunks. rewrite map_map. rewrite (nth_indep _ 0 (stream_size I (bytes_at inp (off + CHUNK_SIZE * Z.of_nat 0) CHUNK_SIZE))) by (rewrite map_length, seq_length; exact Hj).
    rewrite (map_nth (fun j => stream_size I (bytes_at inp (off + CHUNK_SIZE * Z.of_nat j) CHUNK_SIZE))), seq_nth by exact Hj. reflexivity.
Qed.
Lemma size_range x : is_bytes x -> lenZ x = CHUNK_SIZE -> 0 <= stream_size I x <= CHUNK_SIZE.
Proof.
  intros X1 X2. destruct (IC _ X1 X2) as (z & CZ). unfold stream_size. rewrite (coded_size I _ _ _ X1 X2 CZ). pose proof (lenZ_nonneg z). unfold CHUNK_SIZE.
  destruct (Z.leb_spec (lenZ z) 65536); destruct (Z.leb_spec (lenZ z) (65536 - 24)); cbn; try lia.
Qed.
End Sizes.

Lemma impl_facts e I : In I [sw842_implementation e; optsw842_implementation e] ->
  as_single_calls (2 ^ 32) (i_compress I) (i_compress_chunked I) /\
  (forall n rets ia inp is il oa out os ol r a b c, i_compress_chunked I n rets ia inp is il oa out os ol = Done (r, a, b, c) -> r = 0) /\
  (forall x, is_bytes x -> lenZ x = CHUNK_SIZE -> exists z, coded I CHUNK_SIZE x z) /\ CHUNK_SIZE mod i_preferred I = 0 /\
  In (i_compress_chunked I) [sw842_compress_chunked e; optsw842_compress_chunked e] /\ In (i_decompress_chunked I) [sw842_decompress_chunked e; optsw842_decompress_chunked e].
Proof.
  assert (0 < CHUNK_SIZE <= UINT_MAX) by (unfold CHUNK_SIZE, UINT_MAX; lia).
  intros [<-|[<-|[]]]; cbn [i_compress i_decompress i_compress_chunked i_decompress_chunked i_preferred sw842_implementation optsw842_implementation].
  - split; [apply (c28 e); left; reflexivity|]. split; [intros; eapply chunked_ret; eauto|]. split; [intros; now apply sw_codec|]. split; [reflexivity|]. split; left; reflexivity.
  - split; [apply (c28 e); do 2 right; left; reflexivity|]. split; [intros; eapply chunked_ret; eauto|]. split; [intros; apply opt_codec; auto; reflexivity|]. split; [reflexivity|]. split; right; left; reflexivity.
Qed.

Lemma input_facts file : (forall f, file = Some f -> is_bytes f /\ f <> [] /\ lenZ f <= 2 ^ 62) ->
  streams_input file = target file /\ is_bytes (target file) /\ 8 <= lenZ (target file) <= 2 ^ 63 /\ lenZ (target file) mod 8 = 0 /\ (lenZ (target file) > BLOCK_SIZE -> lenZ (target file) mod BLOCK_SIZE = 0).
Proof.
  intros HF. destruct file as [f|]; cbn [streams_input target].
  - destruct (HF f eq_refl) as (Bf & NE & LF). change BLOCK_SIZE with (2 ^ 20). rewrite <- (read_file_padded f 20) by lia. split; [reflexivity|].
    destruct (read_file_ok f 20 ltac:(lia) Bf ltac:(lia)) as [RB ->]. pose proof (next_multiple (lenZ f) 20 ltac:(lia) ltac:(unfold lenZ; lia) ltac:(lia)) as N. cbv zeta in N.
    set (m := nextMultipleOfChunkSize (lenZ f) (2 ^ 20)) in *. destruct N as [N1 N2]. assert (1 <= lenZ f) by (destruct f; [contradiction|unfold lenZ; cbn [length]; lia]).
    pose proof N1 as N3. apply Z.mod_divide in N1; [|lia]. destruct N1 as (q & Q). split; [exact RB|]. split; [lia|]. split; [|auto].
    rewrite Q. replace (q * 2 ^ 20) with (q * 2 ^ 17 * 8) by lia. apply Z.mod_mul. lia.
  - destruct test_string_ok as [T1 T2]. rewrite T2. split; [reflexivity|]. split; [exact T1|]. split; [lia|]. split; [reflexivity|]. unfold BLOCK_SIZE, NUM_CHUNKS_PER_BLOCK, CHUNK_SIZE. lia.
Qed.

Section Main.
Variable e : endian.
Variable I : implementation.
Variable ndebug : bool.
Variable file : option (list Z).
Variable iaddr oaddr daddr : Z.
Variable n : nat.
Variable crets : Z -> list Z.
Variable cbuf : Z -> Z * list Z.
Variable drets : Z -> list Z.
Hypothesis SET : program_setting e I file iaddr oaddr daddr n crets cbuf drets.
Notation step := (program_step I ndebug file iaddr daddr n crets cbuf drets).
Notation start := (program_start I file iaddr oaddr daddr n).
Notation T := (target file).
Notation sstep := (ystep (i_compress_chunked I) (i_decompress_chunked I) ndebug T iaddr daddr n crets cbuf drets).

Lemma the_sizes off b : BLOCK_SIZE < lenZ T -> block_offset (lenZ T) off -> the_block (i_compress_chunked I) T iaddr crets cbuf off = Done b -> b_sizes b = map (stream_size I) (block_chunks T off).
Proof.
  intros G BO E. destruct SET as [S1 S2 S3 S4 S5 S6 S7 S8 S9]. destruct (impl_facts e I S1) as (F1 & F2 & F3 & F4 & _). destruct (input_facts file S2) as (_ & IB & _).
  destruct (S8 off) as (C1 & C2 & C3). exact (block_sizes I F1 F2 F3 F4 T iaddr crets cbuf off b IB BO S3 C1 C2 C3 (S7 off) E).
Qed.
Lemma chunk_in off x : BLOCK_SIZE < lenZ T -> block_offset (lenZ T) off -> In x (block_chunks T off) -> In x (chunks_of CHUNK_SIZE T) /\ is_bytes x /\ lenZ x = CHUNK_SIZE.
Proof.
  intros G BO H. destruct SET as [S1 S2 _ _ _ _ _ _ _]. destruct (input_facts file S2) as (_ & IB & _ & _ & M). split.
  - rewrite chunks_blocks by (apply M; lia). apply in_concat. exists (block_chunks T off). split; [|exact H]. apply in_map. now apply all_offsets_in.
  - unfold block_chunks in H. apply in_map_iff in H. destruct H as (j & <- & Hj). apply in_seq in Hj. destruct BO as (O1 & O2 & O3). split; [now apply is_bytes_slice|].
    assert (BLOCK_SIZE = 16 * CHUNK_SIZE) by reflexivity. assert (0 < CHUNK_SIZE) by reflexivity. apply bytes_at_len; nia.
Qed.
Lemma streams_setting : BLOCK_SIZE < lenZ T -> sample_setting e (i_compress_chunked I) (i_decompress_chunked I) T n crets cbuf drets.
Proof.
  intros G. destruct SET as [S1 S2 S3 S4 S5 S6 S7 S8 S9]. destruct (impl_facts e I S1) as (_ & _ & _ & _ & F5 & F6). destruct (input_facts file S2) as (_ & IB & IL & _).
  constructor; auto; [lia|]. intros off. apply S8.
Qed.
Hypothesis ASS : ndebug = true \/ ~ incompressible I file.
Lemma no_raw : BLOCK_SIZE < lenZ T -> no_raw_chunk (i_compress_chunked I) ndebug T iaddr crets cbuf.
Proof.
  intros G. destruct ASS as [A|A]; [now left|]. right. intros off b j BO E (J1 & J2). rewrite (the_sizes off b G BO E) in J2.
  rewrite (nth_indep _ 0 (stream_size I [])) in J2 by (unfold block_chunks; now rewrite !map_length, seq_length). rewrite map_nth in J2.
  assert (IN : In (nth j (block_chunks T off) []) (block_chunks T off)) by (apply nth_In; unfold block_chunks; now rewrite map_length, seq_length).
  apply A. split; [exact G|]. exists (nth j (block_chunks T off) []). split; [exact (proj1 (chunk_in off _ G BO IN))|]. unfold stream_size in J2.
  destruct (Z.leb_spec (stored_size I (nth j (block_chunks T off) [])) (CHUNK_SIZE - 24)); lia.
Qed.

Lemma fold_sizes (l : list Z) : forall t, 0 <= t -> (forall m, In m l -> 0 <= m) -> t + sum l < 2 ^ 64 -> fold_left (fun t n => u64 (t + n)) l t = t + sum l.
Proof.
  intros t H0 H1 H2. pose proof (fold_sum (fun m => m) l H1 t H0) as F. rewrite map_id in F. exact (F H2).
Qed.
Lemma sum_nonneg l : (forall m, In m l -> 0 <= m) -> 0 <= sum l.
Proof. induction l as [|x l IH]; intros H; cbn [sum fold_right]; [lia|]. pose proof (H x (or_introl eq_refl)). specialize (IH (fun m Hm => H m (or_intror Hm))). unfold sum in IH. lia. Qed.
Lemma reported_blocks offs blocks : BLOCK_SIZE < lenZ T -> Forall2 (fun off b => the_block (i_compress_chunked I) T iaddr crets cbuf off = Done b) offs blocks -> Forall (block_offset (lenZ T)) offs ->
  forall t, 0 <= t -> t + sum (map (stream_size I) (concat (map (block_chunks T) offs))) < 2 ^ 64 ->
  fold_left (fun t b => fold_left (fun t n => u64 (t + n)) (b_sizes b) t) blocks t = t + sum (map (stream_size I) (concat (map (block_chunks T) offs))).
Proof.
  intros G F. destruct (impl_facts e I (ps_impl _ _ _ _ _ _ _ _ _ _ SET)) as (_ & _ & F3 & _).
  induction F as [|off b offs blocks E F IH]; intros V t H0 H1; cbn [map concat fold_left]; [cbn [sum fold_right]; lia|]. apply Forall_cons_iff in V. destruct V as [V1 V2].
  cbn [map concat] in H1. rewrite map_app, sum_app in H1 |- *.
  assert (N1 : forall m, In m (map (stream_size I) (block_chunks T off)) -> 0 <= m).
  { intros m Hm. apply in_map_iff in Hm. destruct Hm as (x & <- & Hx). destruct (chunk_in off x G V1 Hx) as (_ & X1 & X2). exact (proj1 (size_range I F3 x X1 X2)). }
  assert (N2 : forall m, In m (map (stream_size I) (concat (map (block_chunks T) offs))) -> 0 <= m).
  { intros m Hm. apply in_map_iff in Hm. destruct Hm as (x & <- & Hx). apply in_concat in Hx. destruct Hx as (l & Hl & Hx). apply in_map_iff in Hl. destruct Hl as (o & <- & Ho).
    rewrite Forall_forall in V2. destruct (chunk_in o x G (V2 o Ho) Hx) as (_ & X1 & X2). exact (proj1 (size_range I F3 x X1 X2)). }
  apply sum_nonneg in N2 as N3. pose proof (sum_nonneg _ N1) as N4.
  rewrite (the_sizes off b G V1 E), fold_sizes by (auto; lia). rewrite IH by (auto; lia). lia.
Qed.

(** The run of the program is one of the transition system of the streams. *)
Lemma start_streams : BLOCK_SIZE < lenZ T -> start = Streams (sample_start T n).
Proof. intros G. unfold program_start. rewrite (proj1 (input_facts file (ps_file _ _ _ _ _ _ _ _ _ _ SET))). now rewrite (proj2 (Z.gtb_lt _ _) G). Qed.
Lemma start_simple : lenZ T <= BLOCK_SIZE -> start = Simple (Done (0, T)).
Proof.
  intros G. destruct SET as [S1 S2 S3 S4 S5 S6 S7 S8 S9]. destruct (input_facts file S2) as (EI & IB & IL & M8 & _). unfold program_start. rewrite EI.
  destruct (Z.gtb_spec (lenZ T) BLOCK_SIZE); [lia|]. assert (BLOCK_SIZE = 2 ^ 20) by reflexivity.
  destruct (simple_ok e I iaddr oaddr daddr T) as (d & -> & F); auto; [lia|unfold UINT_MAX; lia|]. rewrite bind_done. unfold lenZ. now rewrite Nat2Z.id, F.
Qed.
Lemma reach_simple p : lenZ T <= BLOCK_SIZE -> reachable step start p -> p = Simple (Done (0, T)).
Proof. intros G R. induction R as [|a s s' R IH ST]; [now apply start_simple|]. subst s. discriminate ST. Qed.
Lemma reach_streams p : BLOCK_SIZE < lenZ T -> reachable step start p -> exists y, p = Streams y /\ reachable sstep (sample_start T n) y.
Proof.
  intros G R. induction R as [|a s s' R IH ST]; [exists (sample_start T n); split; [now apply start_streams|apply re_init]|]. destruct IH as (y & -> & RY). cbn [program_step] in ST.
  rewrite (proj1 (input_facts file (ps_file _ _ _ _ _ _ _ _ _ _ SET))) in ST. destruct (sstep a y) as [y'|] eqn:E; [|discriminate ST]. injection ST as <-. exists y'. split; [reflexivity|]. eapply re_step; eauto.
Qed.
Lemma run_streams l : forall y y', run sstep l y = Some y' -> run step l (Streams y) = Some (Streams y').
Proof.
  induction l as [|a l IH]; intros y y' H; cbn [run] in *; [now injection H as <-|]. unfold program_step at 1. rewrite (proj1 (input_facts file (ps_file _ _ _ _ _ _ _ _ _ _ SET))).
  destruct (sstep a y) as [y1|] eqn:E; [|discriminate H]. cbn [option_map]. now apply IH.
Qed.

Lemma streams_result y : BLOCK_SIZE < lenZ T -> reachable sstep (sample_start T n) y ->
  y_pc y <> MAbort /\ y_pc y <> MBroken /\ forall r, y_pc y = MReturn r -> r = true /\ y_mem y = T /\ reported y = sum (map (stream_size I) (chunks_of CHUNK_SIZE T)).
Proof.
  intros G R. destruct (input_facts file (ps_file _ _ _ _ _ _ _ _ _ _ SET)) as (_ & IB & IL & _ & M). specialize (M ltac:(lia)). pose proof (no_raw G) as NR.
  destruct (impl_facts e I (ps_impl _ _ _ _ _ _ _ _ _ _ SET)) as (_ & _ & F3 & _).
  destruct (streams_setting G) as [S1 S2 S3 S4 S5 S6 S7 S8].
  destruct (c80_result e _ _ ndebug T iaddr daddr n crets cbuf drets S1 S2 S3 S4 ltac:(lia) ltac:(lia) S6 S7 S8 NR y R) as (A & B & C). split; [exact A|]. split; [exact B|].
  intros r PC. destruct (C r PC) as (D & MM & _). unfold final_result in D. rewrite M, Z.eqb_refl in D. split; [exact D|]. unfold whole in MM.
  pose proof (Z.div_mod (lenZ T) BLOCK_SIZE ltac:(discriminate)) as X. rewrite M, Z.add_0_r in X. split.
  { rewrite MM. replace (Z.to_nat (lenZ T / BLOCK_SIZE * BLOCK_SIZE)) with (length T) by (unfold lenZ in *; lia). now rewrite firstn_all, Nat.sub_diag, app_nil_r. }
  pose proof (reach_inv e _ _ ndebug T iaddr daddr n crets cbuf drets S1 S2 S3 S4 ltac:(lia) ltac:(lia) S6 S7 S8 NR y R) as INV.
  pose proof (inv_fine _ _ _ _ _ _ _ _ NR y INV) as F. rewrite PC in F. cbn [cphase] in F.
  destruct (ended_offsets T n ltac:(lia) StreamSampleComp.P4 (y_c y) (or_intror eq_refl) F) as (ND & IN & _).
  assert (P : Permutation (StreamSampleComp.offsets (c_trace (y_c y))) (all_offsets (lenZ T))) by (apply NoDup_Permutation; auto using all_offsets_nodup; intros o; now rewrite IN, all_offsets_in).
  assert (EQ : sum (map (stream_size I) (concat (map (block_chunks T) (StreamSampleComp.offsets (c_trace (y_c y)))))) = sum (map (stream_size I) (chunks_of CHUNK_SIZE T))).
  { rewrite chunks_blocks by exact M. apply sum_perm. apply Permutation_map. rewrite <- !flat_map_concat_map. now apply Permutation_flat_map. }
  assert (BD : sum (map (stream_size I) (chunks_of CHUNK_SIZE T)) <= CHUNK_SIZE * lenZ (map (stream_size I) (chunks_of CHUNK_SIZE T))).
  { apply sum_bound. intros m Hm. apply in_map_iff in Hm. destruct Hm as (x & <- & Hx). rewrite chunks_blocks in Hx by exact M. apply in_concat in Hx. destruct Hx as (l & Hl & Hx).
    apply in_map_iff in Hl. destruct Hl as (o & <- & Ho). apply all_offsets_in in Ho. destruct (chunk_in o x G Ho Hx) as (_ & X1 & X2). exact (proj2 (size_range I F3 x X1 X2)). }
  unfold reported. rewrite (reported_blocks _ _ G (yi_blocks _ _ _ _ _ _ _ _ INV) (yi_valid _ _ _ _ _ _ _ _ INV)); [rewrite EQ; lia|lia|]. rewrite EQ, Z.add_0_l.
  eapply Z.le_lt_trans; [exact BD|]. unfold lenZ at 1. unfold chunks_of, chunk_numbers. rewrite !map_length, seq_length. pose proof (Z.mul_div_le (lenZ T) CHUNK_SIZE ltac:(reflexivity)).
  pose proof (Z.div_pos (lenZ T) CHUNK_SIZE ltac:(lia) ltac:(reflexivity)). rewrite Z2Nat.id by lia. lia.
Qed.

Theorem program_ok p : reachable step start p -> ~ crashed p /\ (forall v, finished p = Some v -> v = (0, T)) /\ (exists l p', run step l p = Some p' /\ finished p' = Some (0, T)) /\
  (forall y r, p = Streams y -> y_pc y = MReturn r -> reported y = sum (map (stream_size I) (chunks_of CHUNK_SIZE T))).
Proof.
  intros R. destruct (Z.leb_spec (lenZ T) BLOCK_SIZE) as [G|G].
  - rewrite (reach_simple p G R). cbn [crashed finished]. split; [tauto|]. split; [congruence|]. split; [exists [], (Simple (Done (0, T))); split; reflexivity|]. discriminate.
  - destruct (reach_streams p G R) as (y & -> & RY). destruct (streams_result y G RY) as (A & B & C). cbn [crashed finished]. split; [tauto|]. split.
    { intros v. destruct (y_pc y) eqn:PC; try discriminate. intros H. injection H as <-. destruct (C _ eq_refl) as (-> & -> & _). reflexivity. }
    split.
    { pose proof (no_raw G) as NR. destruct (streams_setting G) as [S1 S2 S3 S4 S5 S6 S7 S8].
      destruct (c80_returns e _ _ ndebug T iaddr daddr n crets cbuf drets S1 S2 S3 S4 ltac:(lia) ltac:(lia) S6 S7 S8 NR y RY) as (l & y' & r & E & PC). exists l, (Streams y'). split; [now apply run_streams|].
      assert (RY' : reachable sstep (sample_start T n) y').
      { clear - RY E. revert y RY E. induction l as [|a l IH]; intros y RY E; cbn [run] in E; [now injection E as <-|]. destruct (sstep a y) as [y1|] eqn:S; [|discriminate E]. eapply IH; [|exact E]. eapply re_step; eauto. }
      destruct (streams_result y' G RY') as (_ & _ & C'). destruct (C' r PC) as (-> & M & _). cbn [finished]. now rewrite PC, M. }
    intros y0 r H PC. injection H as <-. now apply (C r).
Qed.
End Main.

(** * Assertions *)
Section Assertions.
Variable e : endian.
Variable I : implementation.
Variable file : option (list Z).
Variable iaddr oaddr daddr : Z.
Variable n : nat.
Variable crets : Z -> list Z.
Variable cbuf : Z -> Z * list Z.
Variable drets : Z -> list Z.
Hypothesis SET : program_setting e I file iaddr oaddr daddr n crets cbuf drets.
Hypothesis INC : incompressible I file.
Notation step := (program_step I false file iaddr daddr n crets cbuf drets).
Notation start := (program_start I file iaddr oaddr daddr n).
Notation T := (target file).

Lemma has_raw : exists off b j, block_offset (lenZ T) off /\ the_block (i_compress_chunked I) T iaddr crets cbuf off = Done b /\ stored_raw b j.
Proof.
  destruct INC as [G (x & IN & S)]. destruct (input_facts file (ps_file _ _ _ _ _ _ _ _ _ _ SET)) as (_ & IB & IL & _ & M). specialize (M ltac:(lia)). rewrite chunks_blocks in IN by exact M.
  apply in_concat in IN. destruct IN as (l & Hl & Hx). apply in_map_iff in Hl. destruct Hl as (off & <- & Ho). apply all_offsets_in in Ho.
  destruct (streams_setting e I file iaddr oaddr daddr n crets cbuf drets SET G) as [S1 S2 S3 S4 S5 S6 S7 S8].
  pose proof Ho as (O1 & O2 & O3). destruct (S7 off) as [B1 B2]. destruct (BlockProps.in_comp _ _ S1) as [fc Hfc].
  destruct (comp_block e fc _ Hfc (crets off) iaddr T (fst (cbuf off)) (snd (cbuf off)) off S3 B1 B2 (S6 off) O1 O3) as (b & E & _).
  apply (In_nth _ _ []) in Hx. destruct Hx as (j & Hj & EX). exists off, b, j. split; [exact Ho|]. split; [exact E|]. unfold block_chunks in Hj. rewrite map_length, seq_length in Hj. split; [exact Hj|].
  rewrite (the_sizes e I file iaddr oaddr daddr n crets cbuf drets SET off b G Ho E). rewrite (nth_indep _ 0 (stream_size I [])) by (unfold block_chunks; now rewrite !map_length, seq_length).
  rewrite map_nth, EX. unfold stream_size. destruct (Z.leb_spec (stored_size I x) (CHUNK_SIZE - 24)); lia.
Qed.
Theorem program_aborts p : reachable step start p -> finished p = None /\ (crashed p \/ exists a p', is_wake a = false /\ step a p = Some p').
Proof.
  intros R. pose proof INC as [G _]. destruct (reach_streams e I false file iaddr oaddr daddr n crets cbuf drets SET p G R) as (y & -> & RY).
  destruct (assert_abort e _ _ T iaddr daddr n crets cbuf drets (streams_setting e I file iaddr oaddr daddr n crets cbuf drets SET G) has_raw y RY) as (A & B & C). cbn [finished crashed]. split.
  - destruct (y_pc y) eqn:PC; auto. now elim (B r).
  - destruct C as [C|(a & y' & W & ST)]; [auto|]. right. exists a, (Streams y'). split; [exact W|]. cbn [program_step]. rewrite (proj1 (input_facts file (ps_file _ _ _ _ _ _ _ _ _ _ SET))), ST. reflexivity.
Qed.
Lemma run_back l : forall y p, run step l (Streams y) = Some p ->
  exists y', p = Streams y' /\ run (ystep (i_compress_chunked I) (i_decompress_chunked I) false T iaddr daddr n crets cbuf drets) l y = Some y'.
Proof.
  induction l as [|a l IH]; intros y p H; cbn [run] in *; [injection H as <-; eauto|]. unfold program_step at 1 in H. rewrite (proj1 (input_facts file (ps_file _ _ _ _ _ _ _ _ _ _ SET))) in H.
  destruct (ystep _ _ _ _ _ _ _ _ _ _ a y) as [y1|]; [|discriminate H]. cbn [option_map] in H. now apply IH.
Qed.
Theorem program_abort_bound l p : run step l start = Some p ->
  let N := Z.of_nat n in let B := lenZ T / BLOCK_SIZE in
  cnt (fun a => negb (is_wake a)) l <= (B + 20) * (10 * B + N * ((N + 5) * (B + 1) + 28) + (3 * B + N * (N + 20)) + 1) + cnt is_wake l + 1.
Proof.
  intros R. pose proof INC as [G _]. rewrite (start_streams e I file iaddr oaddr daddr n crets cbuf drets SET G) in R. apply run_back in R. destruct R as (y & -> & R).
  exact (assert_bound e _ _ T iaddr daddr n crets cbuf drets (streams_setting e I file iaddr oaddr daddr n crets cbuf drets SET G) l y R).
Qed.
End Assertions.

(** * Whatever the library does *)
Theorem program_honest I ndebug file iaddr oaddr daddr n crets cbuf drets p d : (forall f, file = Some f -> lenZ f + BLOCK_SIZE <= 2 ^ 64) ->
  reachable (program_step I ndebug file iaddr daddr n crets cbuf drets) (program_start I file iaddr oaddr daddr n) p -> finished p = Some (0, d) -> d = target file.
Proof.
  intros HF. assert (EI : streams_input file = target file).
  { destruct file as [f|]; cbn [streams_input target]; auto. change BLOCK_SIZE with (2 ^ 20) in *. apply read_file_padded; [lia|auto]. }
  assert (X : forall p, reachable (program_step I ndebug file iaddr daddr n crets cbuf drets) (program_start I file iaddr oaddr daddr n) p ->
    (exists o, p = Simple o /\ program_start I file iaddr oaddr daddr n = Simple o) \/
    exists y, p = Streams y /\ reachable (ystep (i_compress_chunked I) (i_decompress_chunked I) ndebug (streams_input file) iaddr daddr n crets cbuf drets) (sample_start (streams_input file) n) y).
  { intros q R. induction R as [|a s s' R IH ST].
    - unfold program_start. destruct (lenZ _ >? _); [right; eexists; split; [reflexivity|apply re_init]|left; eexists; split; reflexivity].
    - destruct IH as [(o & -> & _)|(y & -> & RY)]; [discriminate ST|]. right. cbn [program_step] in ST. destruct (ystep _ _ _ _ _ _ _ _ _ _ a y) as [y'|] eqn:E; [|discriminate ST]. injection ST as <-.
      exists y'. split; [reflexivity|]. eapply re_step; eauto. }
  intros R H. destruct (X p R) as [(o & -> & S)|(y & -> & RY)].
  - cbn [finished] in H. destruct o as [v| |]; try discriminate H. injection H as ->. unfold program_start in S. rewrite EI in S. set (inp := target file) in *. destruct (lenZ inp >? BLOCK_SIZE); [discriminate S|].
    injection S as S. revert S. unfold simple_test. destruct (i_compress I iaddr oaddr inp _ _) as [[[err olen] m]| |]; try discriminate. rewrite bind_done. destruct (negb (err =? 0)); [discriminate|].
    destruct (load_bytes m 0 olen); try discriminate. rewrite bind_done. destruct (i_decompress I _ _ _ _ _) as [[[err' dlen] d']| |]; try discriminate. rewrite bind_done.
    destruct (negb (err' =? 0)); [discriminate|]. rewrite bind_done. destruct (lenZ inp =? dlen) eqn:E1; [|discriminate]. cbn [andb]. destruct (OclModel.list_eqb inp _) eqn:E2; [|discriminate].
    intros H. injection H as <-. apply Z.eqb_eq in E1. apply list_eqb_eq in E2. rewrite <- E1. unfold lenZ. now rewrite Nat2Z.id.
  - cbn [finished] in H. destruct (y_pc y) eqn:PC; try discriminate H. destruct r; [|discriminate H]. injection H as <-. rewrite <- EI. now apply (sample_honest _ _ _ _ _ _ _ _ _ _ y RY).
Qed.

(** * An empty file *)
Theorem program_empty e iaddr oaddr daddr n : oaddr mod 8 = 0 -> iaddr mod 8 = 0 ->
  program_start (sw842_implementation e) (Some []) iaddr oaddr daddr n = Simple (Done (1, [])) /\ program_start (optsw842_implementation e) (Some []) iaddr oaddr daddr n = Simple Undef.
Proof.
  intros HO HI. destruct (driver_empty e 20 1 iaddr oaddr daddr (fun _ => []) (fun _ => []) (fun _ => []) (fun _ => []) ltac:(lia) HO HI) as [A B].
  assert (R : read_file [] (2 ^ 20) = []) by reflexivity. unfold compdecomp in A, B. unfold program_start, streams_input. change BLOCK_SIZE with (2 ^ 20). rewrite R in *.
  change (lenZ (@nil Z) >? 2 ^ 20) with false in *. cbv iota in *. split; f_equal; assumption.
Qed.

(** A file whose first chunk cannot be compressed. *)
Lemma raw_stored e I hs buf : In I [sw842_implementation e; optsw842_implementation e] -> is_bytes hs -> lenZ hs = BLOCK_SIZE -> is_bytes buf -> lenZ buf = BLOCK_SIZE ->
  (forall b, block_of hs 0 b -> nth 0 (b_sizes b) 0 = CHUNK_SIZE) -> CHUNK_SIZE - 24 < stored_size I (bytes_at hs 0 CHUNK_SIZE).
Proof.
  intros HI HB HL ZB ZL RAW. destruct (impl_facts e I HI) as (F1 & F2 & F3 & F4 & F5 & _).
  destruct (BlockProps.in_comp _ _ F5) as [fc Hfc].
  destruct (comp_block e fc _ Hfc (repeat 0 16) 0 hs 0 buf 0 HB ZB ZL) as (b & E & BO); [reflexivity|lia|lia|].
  rewrite Z2Nat.inj_0, skipn_O in BO. pose proof (RAW _ BO) as R.
  assert (S : b_sizes b = map (stream_size I) (block_chunks hs 0)).
  { apply (block_sizes I F1 F2 F3 F4 hs 0 (fun _ => repeat 0 16) (fun _ => (0, buf)) 0 b); auto; try (apply Zmod_0_l). split; [lia|]. split; [apply Zmod_0_l|rewrite HL; reflexivity]. }
  rewrite S in R. unfold block_chunks in R. cbn [seq map nth] in R. change (0 + CHUNK_SIZE * Z.of_nat 0) with 0 in R.
  unfold stream_size in R. destruct (Z.leb_spec (stored_size I (bytes_at hs 0 CHUNK_SIZE)) (CHUNK_SIZE - 24)); lia.
Qed.
Lemma raw_incompressible e I hs buf : In I [sw842_implementation e; optsw842_implementation e] -> is_bytes hs -> lenZ hs = BLOCK_SIZE -> is_bytes buf -> lenZ buf = BLOCK_SIZE ->
  (forall b, block_of hs 0 b -> nth 0 (b_sizes b) 0 = CHUNK_SIZE) -> incompressible I (Some (hs ++ [0])).
Proof.
  intros HI HB HL ZB ZL RAW. assert (LF : lenZ (hs ++ [0]) = BLOCK_SIZE + 1) by (rewrite <- HL; unfold lenZ; rewrite app_length; cbn [length]; lia).
  assert (BP : BLOCK_SIZE = 1048576) by reflexivity. assert (CP : CHUNK_SIZE = 65536) by reflexivity.
  assert (LT : lenZ (target (Some (hs ++ [0]))) = 2 * BLOCK_SIZE).
  { cbn [target]. unfold padded. rewrite LF, BP. change (- (1048576 + 1) mod 1048576) with 1048575. unfold lenZ in *. rewrite app_length, repeat_length. rewrite BP in *. lia. }
  split; [rewrite LT; lia|]. exists (bytes_at hs 0 CHUNK_SIZE). split; [|exact (raw_stored e I hs buf HI HB HL ZB ZL RAW)].
  unfold chunks_of. apply in_map_iff. exists 0. split.
  - cbn [target]. unfold padded, bytes_at, slice. rewrite Z.mul_0_r, Z2Nat.inj_0, !skipn_O, <- app_assoc. rewrite firstn_app.
    replace (Z.to_nat CHUNK_SIZE - length hs)%nat with 0%nat by (unfold lenZ in HL; lia). rewrite firstn_O. now rewrite app_nil_r.
  - unfold chunk_numbers. rewrite LT. change 0 with (Z.of_nat 0) at 1. apply in_map, in_seq. split; [lia|]. rewrite BP, CP. change (2 * 1048576 / 65536) with 32. change (Z.to_nat 32) with 32%nat. lia.
Qed.
Lemma hard_incompressible e I : In I [sw842_implementation e; optsw842_implementation e] -> incompressible I (Some (BlockProps.hard_source ++ [0])).
Proof.
  intros HI. apply (raw_incompressible e I BlockProps.hard_source BlockProps.hard_source HI); try exact BlockProps.hard_length; try apply Expansion.ramp_bytes.
  intros b. apply BlockProps.hard_raw.
Qed.
