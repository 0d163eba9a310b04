(** Proofs about the handle_block functions of the streams. *)
From Coq Require Import ZArith List Bool Lia.
From Verif Require Import SpecBits SpecCrc Spec842 SpecCalls CBase BitsLemmas CrcModel CrcProofs
  SerialCompModel SerialDecompModel SerialWriter SerialDict SerialIdeal SerialComp SerialValid PureDecoder SerialReader SerialDecomp SerialFacts SerialProps
  OptCompModel OptDecompModel OptWriter OptComp OptDecomp OptProps ChunkedModel SpecChunked ChunkedProofs StreamBlockModel.
Import ListNotations.
Open Scope Z_scope.

Lemma nth_slice (a : list Z) d c k : (k < c)%nat -> nth k (slice d c a) 0 = nth (d + k) a 0.
Proof. intros. unfold slice. rewrite nth_firstn_gen by lia. apply nth_skipn_gen. Qed.

(** The compressors on a chunk. *)
Lemma comp_single e fc a b x out cap : In fc [sw842_compress_f e; optsw842_compress_f e] ->
  is_bytes x -> lenZ x mod 8 = 0 -> x <> [] -> is_bytes out -> 0 <= cap <= lenZ out -> cap < 2 ^ 63 ->
  exists r n z, observed (fc a b x out cap) = Done (r, n, z) /\ 0 <= n <= cap /\ (r = 0 -> is_compressed x z /\ lenZ z = n).
Proof.
  intros Hf Hx HM HN Ho Hc H63.
  assert (G : good_call fc) by (destruct Hf as [<-|[<-|[]]]; [apply good_sw_compress|apply good_optsw_compress]).
  assert (SW : forall addr, exists r n m, sw842_compress e addr x out cap = Done (r, n, m)).
  { intros addr. destruct (sw842_compress_out e addr x out cap Hx Ho Hc) as [(_ & _ & m & E & _)|(_ & m & E & _)]; eauto. }
  assert (D : exists r n m, fc a b x out cap = Done (r, n, m)).
  { destruct Hf as [<-|[<-|[]]]; [apply SW|]. unfold optsw842_compress_f. destruct (al a b) eqn:A.
    - apply al_true in A. destruct A. destruct (optsw842_compress_out e a b x out cap) as [(_ & m & E & _)|(_ & m & E & _)]; eauto.
    - rewrite ocomp_unaligned by auto. destruct (Z.eqb_spec (lenZ x mod 8) 0); [|contradiction]. apply SW. }
  destruct D as (r & n & m & E).
  destruct (gc_frame _ G a b x out cap r n m Hx Ho Hc H63 E) as (N & BM & LM & _).
  assert (LZ : lenZ (firstn (Z.to_nat n) m) = n) by (unfold lenZ in *; rewrite firstn_length; lia).
  exists r, n, (firstn (Z.to_nat n) m). rewrite E. split; [reflexivity|]. split; auto. intros ->. split; auto.
  exists e, out, cap. split; auto. split; auto.
  assert (F : firstn (length (firstn (Z.to_nat n) m)) m = firstn (Z.to_nat n) m).
  { f_equal. unfold lenZ in LZ. lia. }
  rewrite LZ. destruct Hf as [<-|[<-|[]]]; [left; eauto|right; eauto].
Qed.
Lemma compressed_len x z : is_bytes x -> lenZ x mod 8 = 0 -> is_compressed x z -> 0 < lenZ z.
Proof.
  intros Hx HM HC. destruct (compressed_valid x z Hx HM HC) as (_ & (rest & S) & _ & _).
  destruct z; [|unfold lenZ; cbn [length]; lia]. exfalso. change (bytes_bits []) with (@nil bool) in S.
  assert (L : forall b0 x0 r0, stream false [] b0 x0 r0 -> b0 <> []).
  { clear. intros b0 x0 r0 [] E; apply (f_equal (@length bool)) in E; rewrite app_length, bits_of_length in E; cbn [length] in E; lia. }
  now apply L in S.
Qed.
Lemma decomp_single e fd a b x z out cap : In fd [sw842_decompress_f e; optsw842_decompress_f e] ->
  is_bytes x -> lenZ x mod 8 = 0 -> lenZ x <= UINT_MAX -> is_compressed x z -> is_bytes out -> lenZ x <= cap <= lenZ out -> cap < 2 ^ 63 ->
  observed (fd a b z out cap) = Done (0, lenZ x, x).
Proof.
  intros [<-|[<-|[]]] **; unfold sw842_decompress_f, optsw842_decompress_f; [now apply c22_sw|now apply c22_opt; auto].
Qed.

Lemma done_inj {A} (x y : A) : Done x = Done y -> x = y.
Proof. congruence. Qed.
Lemma slice_lenZ j n (l : list Z) : 0 <= n -> Z.of_nat j * n + n <= lenZ l -> lenZ (slice (Z.to_nat (Z.of_nat j * n)) (Z.to_nat n) l) = n.
Proof. intros. unfold lenZ in *. rewrite slice_length; lia. Qed.
Lemma split_index q c : (0 < c)%nat -> exists j i, q = (j * c + i)%nat /\ (i < c)%nat.
Proof.
  intros H. exists (q / c)%nat, (q mod c)%nat. split; [|apply Nat.mod_upper_bound; lia].
  pose proof (Nat.div_mod q c ltac:(lia)). lia.
Qed.
Definition CS : nat := Z.to_nat CHUNK_SIZE.
Lemma nth_repeat16 j : (j < 16)%nat -> nth j (List.repeat CHUNK_SIZE 16) 0 = CHUNK_SIZE.
Proof. intros. apply nth_error_nth with (x := CHUNK_SIZE). now apply nth_error_repeat. Qed.
Lemma n16 : Z.to_nat NUM_CHUNKS_PER_BLOCK = 16%nat.
Proof. reflexivity. Qed.

(** ** Compression *)
Definition csize (r n : Z) : Z := if (r =? 0) && (n <=? COMPRESSIBLE_THRESHOLD) then n else CHUNK_SIZE.
Lemma chunk_sizes_nth rets : forall olens j, length rets = length olens ->
  length (fst (chunk_sizes rets olens)) = length rets /\
  ((j < length rets)%nat -> nth j (fst (chunk_sizes rets olens)) 0 = csize (nth j rets 0) (nth j olens 0)) /\
  ((j < length rets)%nat -> (nth j rets 0 =? 0) && (nth j olens 0 <=? COMPRESSIBLE_THRESHOLD) = true -> snd (chunk_sizes rets olens) = true).
Proof.
  induction rets as [|r rets IH]; intros [|n olens] j L; cbn [length] in *; try discriminate.
  - cbn. split; auto. split; lia.
  - injection L as L. cbn [chunk_sizes]. destruct (chunk_sizes rets olens) as [l any] eqn:E.
    destruct j as [|j].
    + destruct (IH olens 0%nat L) as (A & _). rewrite E in A. cbn [fst snd length nth] in *. rewrite A. split; auto. split; auto.
      intros _ ->. reflexivity.
    + destruct (IH olens j L) as (A & B & C). rewrite E in A, B, C. cbn [fst snd length nth] in *. rewrite A. split; auto. split.
      * intros. apply B. lia.
      * intros. rewrite C by (auto; lia). apply orb_true_r.
Qed.

Section Block.
Variable e : endian.
Variables (fc fd : chunk_func) (gc gd : chunked_func).
Hypothesis Hfc : In (fc, gc) [(sw842_compress_f e, sw842_compress_chunked e); (optsw842_compress_f e, optsw842_compress_chunked e)].
Hypothesis Hfd : In (fd, gd) [(sw842_decompress_f e, sw842_decompress_chunked e); (optsw842_decompress_f e, optsw842_decompress_chunked e)].
Let GCS : as_single_calls (2 ^ 32) fc gc.
Proof. apply (c28 e). destruct Hfc as [H|[H|[]]]; apply pair_inj in H; destruct H as [<- <-]; cbn [In]; auto. Qed.
Let GDS : as_single_calls (2 ^ 32) fd gd.
Proof. apply (c28 e). destruct Hfd as [H|[H|[]]]; apply pair_inj in H; destruct H as [<- <-]; cbn [In]; auto. Qed.
Let Hfc1 : In fc [sw842_compress_f e; optsw842_compress_f e].
Proof. destruct Hfc as [H|[H|[]]]; apply pair_inj in H; destruct H as [<- <-]; cbn [In]; auto. Qed.
Let Hfd1 : In fd [sw842_decompress_f e; optsw842_decompress_f e].
Proof. destruct Hfd as [H|[H|[]]]; apply pair_inj in H; destruct H as [<- <-]; cbn [In]; auto. Qed.

(** What a delivered block is: every chunk is stored raw or compressed. *)
Definition block_of (source : list Z) (off : Z) (b : block) : Prop :=
  b_offset b = off /\ b_padding b = CHUNK_SIZE /\ b_source b = Some source /\ length (b_sizes b) = 16%nat /\
  (forall baddr buf, b_buffer b = Some (baddr, buf) -> is_bytes buf) /\
  forall j, (j < 16)%nat ->
    nth j (b_sizes b) 0 = CHUNK_SIZE \/
    0 < nth j (b_sizes b) 0 <= COMPRESSIBLE_THRESHOLD /\
    exists baddr buf, b_buffer b = Some (baddr, buf) /\ lenZ buf = BLOCK_SIZE /\ is_bytes buf /\
      is_compressed (slice (j * CS) CS source) (slice (j * CS) (Z.to_nat (nth j (b_sizes b) 0)) buf).

Lemma comp_block rets0 paddr src baddr buf off :
  is_bytes src -> is_bytes buf -> lenZ buf = BLOCK_SIZE -> length rets0 = 16%nat -> 0 <= off -> off + BLOCK_SIZE <= lenZ src ->
  exists b, comp_handle_block gc rets0 paddr src baddr buf off = Done b /\ block_of (skipn (Z.to_nat off) src) off b.
Proof.
  intros Hs Hb LB LR O1 O2. unfold comp_handle_block. set (source := skipn (Z.to_nat off) src).
  assert (BS : is_bytes source) by now apply is_bytes_skipn.
  assert (LS : BLOCK_SIZE <= lenZ source) by (unfold source, lenZ in *; rewrite skipn_length; lia).
  assert (BE : BLOCK_SIZE = 16 * 65536) by reflexivity.
  assert (LV : forall j, live NUM_CHUNKS_PER_BLOCK (List.repeat CHUNK_SIZE 16) j <-> (j < 16)%nat).
  { intros j. unfold live. rewrite n16. split; [tauto|]. intros H. split; auto. rewrite nth_repeat16 by auto. discriminate. }
  assert (LIN : forall j, (j < 16)%nat -> lenZ (slice (j * CS) CS source) = CHUNK_SIZE).
  { intros j Hj. unfold lenZ in *. rewrite slice_length; unfold CS, CHUNK_SIZE in *; lia. }
  assert (SG : forall j, (j < 16)%nat -> exists r n z,
     single fc (paddr + off) source CHUNK_SIZE (List.repeat CHUNK_SIZE 16) baddr buf CHUNK_SIZE (List.repeat CHUNK_SIZE 16) j = Done (r, n, z) /\
     0 <= n <= CHUNK_SIZE /\ (r = 0 -> is_compressed (slice (j * CS) CS source) z /\ lenZ z = n)).
  { intros j Hj. unfold single. rewrite nth_repeat16 by auto.
    replace (Z.to_nat (Z.of_nat j * CHUNK_SIZE)) with (j * CS)%nat by (unfold CS, CHUNK_SIZE; lia). fold CS.
    apply (comp_single e); auto.
    - now apply is_bytes_slice.
    - rewrite LIN by auto. reflexivity.
    - intros N. pose proof (LIN j Hj) as L. rewrite N in L. discriminate.
    - now apply is_bytes_slice.
    - unfold lenZ in *. rewrite slice_length; unfold CS, CHUNK_SIZE in *; lia.
    - unfold CHUNK_SIZE. lia. }
  destruct (GCS NUM_CHUNKS_PER_BLOCK rets0 (paddr + off) source CHUNK_SIZE (List.repeat CHUNK_SIZE 16) baddr buf CHUNK_SIZE (List.repeat CHUNK_SIZE 16))
    as (ret & rets & olens & buf' & E & P & _ & LR' & LO' & LB' & BB' & _); auto.
  - unfold NUM_CHUNKS_PER_BLOCK, UINT_MAX. lia.
  - do 2 (split; [reflexivity|]). split; [unfold lenZ; rewrite LR; reflexivity|]. do 2 (split; [unfold CHUNK_SIZE; lia|]).
    intros j Hj. apply LV in Hj. rewrite nth_repeat16 by auto. rewrite LB. unfold CHUNK_SIZE in *. rewrite BE in *. lia.
  - unfold NUM_CHUNKS_PER_BLOCK, CHUNK_SIZE. lia.
  - unfold NUM_CHUNKS_PER_BLOCK, CHUNK_SIZE. lia.
  - intros j Hj. apply LV in Hj. destruct (SG j Hj) as (r & n & z & E & _). eauto.
  - assert (R0 : ret = 0).
    { destruct Hfc as [H|[H|[]]]; apply pair_inj in H; destruct H as [_ H]; rewrite <- H in E; eapply chunked_ret; exact E. }
    rewrite E, bind_done, R0. cbn [Z.eqb negb].
    rewrite repeat_length in LO'. rewrite LR in LR'.
    assert (LL : length rets = length olens) by congruence.
    destruct (chunk_sizes rets olens) as [sizes any] eqn:CZ.
    eexists. split; [reflexivity|]. do 3 (split; [reflexivity|]). cbn [b_sizes b_buffer].
    split; [destruct (chunk_sizes_nth rets olens 0 LL) as (A & _); rewrite CZ in A; cbn [fst] in A; congruence|].
    split; [intros ba bu EB; destruct any; [injection EB as <- <-; auto|discriminate]|].
    intros j Hj. destruct (chunk_sizes_nth rets olens j LL) as (_ & B & C). rewrite CZ in B, C. cbn [fst snd] in B, C.
    rewrite LR' in B, C. specialize (B Hj). specialize (C Hj).
    specialize (P j (proj2 (LV j) Hj)). destruct (SG j Hj) as (r & n & z & E1 & N & Z1). rewrite E1 in P. unfold seen in P.
    assert (PE : (r, n, z) = (nth j rets 0, nth j olens 0, slice (Z.to_nat (Z.of_nat j * CHUNK_SIZE)) (Z.to_nat (nth j olens 0)) buf')) by (injection P; congruence).
    apply pair_inj in PE. destruct PE as [PE Ez]. apply pair_inj in PE. destruct PE as [Er En].
    rewrite <- Er, <- En in B, C. unfold csize in B. rewrite B.
    destruct ((r =? 0) && (n <=? COMPRESSIBLE_THRESHOLD)) eqn:CO; [right|now left].
    rewrite (C eq_refl). apply andb_true_iff in CO. destruct CO as [C1 C2]. apply Z.eqb_eq in C1. apply Z.leb_le in C2.
    destruct (Z1 C1) as [Z2 Z3].
    assert (ZE : z = slice (j * CS) (Z.to_nat n) buf').
    { rewrite Ez, <- En. f_equal. unfold CS, CHUNK_SIZE. lia. }
    split.
    { pose proof (compressed_len (slice (j * CS) CS source) z ltac:(now apply is_bytes_slice) ltac:(rewrite LIN by auto; reflexivity) Z2). lia. }
    exists baddr, buf'. split; [reflexivity|]. split; [unfold lenZ in *; lia|]. split; auto. rewrite <- ZE. exact Z2.
Qed.

(** ** Decompression *)
Definition raw (b : block) (j : nat) : Prop := nth j (b_sizes b) 0 = CHUNK_SIZE.

Lemma store_nth (mem bs : list Z) (d : nat) : (d + length bs <= length mem)%nat ->
  exists mem', store_bytes mem (Z.of_nat d) bs = Done mem' /\ length mem' = length mem /\
    (is_bytes mem -> is_bytes bs -> is_bytes mem') /\
    (forall k, (k < length bs)%nat -> nth (d + k) mem' 0 = nth k bs 0) /\
    (forall k, ~ (d <= k < d + length bs)%nat -> nth k mem' 0 = nth k mem 0).
Proof using.
  clear. intros H. unfold store_bytes. destruct (Z.leb_spec 0 (Z.of_nat d)); [|lia].
  destruct (Z.leb_spec (Z.of_nat d + lenZ bs) (lenZ mem)) as [|B]; [|unfold lenZ in B; lia]. cbn [andb]. rewrite Nat2Z.id.
  eexists. split; [reflexivity|].
  assert (LF : length (firstn d mem) = d) by (rewrite firstn_length; lia).
  split; [rewrite !app_length, LF, skipn_length; lia|]. split.
  { intros. rewrite !is_bytes_app. split; [now apply is_bytes_firstn|]. split; auto. now apply is_bytes_skipn. }
  split.
  - intros k Hk. rewrite app_nth2 by lia. rewrite LF. replace (d + k - d)%nat with k by lia. now apply app_nth1.
  - intros k Hk. destruct (Nat.lt_ge_cases k d).
    + rewrite app_nth1 by lia. now apply nth_firstn_gen.
    + rewrite app_nth2 by lia. rewrite LF. rewrite app_nth2 by lia. rewrite nth_skipn_gen. f_equal. lia.
Qed.

Lemma prepare_ok b source (off : nat) : b_source b = Some source -> b_offset b = Z.of_nat off ->
  is_bytes source -> 16 * 65536 <= lenZ source -> forall sizes i mem, is_bytes mem ->
  (i + length sizes = 16)%nat -> (off + 16 * CS <= length mem)%nat ->
  exists ilens mem', prepare true b (Z.of_nat i) sizes mem = Done (Some (ilens, mem')) /\ length ilens = length sizes /\
    length mem' = length mem /\ is_bytes mem' /\
    (forall j, (j < length sizes)%nat -> nth j ilens 0 = if (nth j sizes 0 =? 0) || (nth j sizes 0 =? CHUNK_SIZE) then SIZE_MAX else nth j sizes 0) /\
    (forall j k, (j < length sizes)%nat -> nth j sizes 0 = CHUNK_SIZE -> (k < CS)%nat ->
       nth (off + (i + j) * CS + k) mem' 0 = nth ((i + j) * CS + k) source 0) /\
    (forall k, (forall j, (j < length sizes)%nat -> nth j sizes 0 = CHUNK_SIZE -> ~ (off + (i + j) * CS <= k < off + (i + j) * CS + CS)%nat) ->
       nth k mem' 0 = nth k mem 0).
Proof using.
  clear. intros HS HO HB HL. assert (CE : CS = Z.to_nat 65536) by reflexivity.
  induction sizes as [|n sizes IH]; intros i mem HM Hi Hmem; cbn [prepare].
  - exists [], mem. cbn [length]. split; auto. do 3 (split; auto). split; [intros; lia|]. split; [intros; lia|]. auto.
  - cbn [length] in Hi.
    assert (CONT : forall ilen mem1, is_bytes mem1 -> length mem1 = length mem ->
      ilen = (if (n =? 0) || (n =? CHUNK_SIZE) then SIZE_MAX else n) ->
      (n = CHUNK_SIZE -> forall k, (k < CS)%nat -> nth (off + i * CS + k) mem1 0 = nth (i * CS + k) source 0) ->
      (forall k, (n = CHUNK_SIZE -> ~ (off + i * CS <= k < off + i * CS + CS)%nat) -> nth k mem1 0 = nth k mem 0) ->
      exists ilens mem', (o <- prepare true b (Z.of_nat i + 1) sizes mem1 ;;
        match o with Some (l, m') => Done (Some (ilen :: l, m')) | None => Done None end) = Done (Some (ilens, mem')) /\ length ilens = S (length sizes) /\
      length mem' = length mem /\ is_bytes mem' /\
      (forall j, (j < S (length sizes))%nat -> nth j ilens 0 = if (nth j (n :: sizes) 0 =? 0) || (nth j (n :: sizes) 0 =? CHUNK_SIZE) then SIZE_MAX else nth j (n :: sizes) 0) /\
      (forall j k, (j < S (length sizes))%nat -> nth j (n :: sizes) 0 = CHUNK_SIZE -> (k < CS)%nat ->
         nth (off + (i + j) * CS + k) mem' 0 = nth ((i + j) * CS + k) source 0) /\
      (forall k, (forall j, (j < S (length sizes))%nat -> nth j (n :: sizes) 0 = CHUNK_SIZE -> ~ (off + (i + j) * CS <= k < off + (i + j) * CS + CS)%nat) ->
         nth k mem' 0 = nth k mem 0)).
    { intros ilen mem1 B1 L1 EI RAW REST.
      replace (Z.of_nat i + 1) with (Z.of_nat (S i)) by lia.
      destruct (IH (S i) mem1 B1 ltac:(lia) ltac:(lia)) as (il & m' & E & A1 & A2 & A3 & A4 & A5 & A6).
      rewrite E, bind_done. exists (ilen :: il), m'. split; [reflexivity|]. split; [cbn [length]; lia|]. split; [lia|]. split; auto.
      split; [|split].
      - intros [|j] Hj; cbn [nth]; [exact EI|]. apply A4. lia.
      - intros [|j] k Hj EN Hk; cbn [nth] in EN.
        + rewrite A6; [rewrite Nat.add_0_r; now apply RAW|]. intros j' Hj' _. rewrite CE in *. nia.
        + replace (i + S j)%nat with (S i + j)%nat by lia. apply A5; auto. lia.
      - intros k Hk. rewrite A6; [apply REST|].
        + intros EN. specialize (Hk 0%nat ltac:(lia) EN). now rewrite Nat.add_0_r in Hk.
        + intros j Hj EN. specialize (Hk (S j) ltac:(lia) EN). now replace (S i + j)%nat with (i + S j)%nat by lia. }
    destruct (Z.eqb_spec n 0) as [E0|N0].
    { apply CONT; auto. intros ->. discriminate. }
    destruct (Z.eqb_spec n CHUNK_SIZE) as [EC|NC].
    { rewrite HS. cbn [negb].
      assert (LB : load_bytes source (Z.of_nat i * CHUNK_SIZE) CHUNK_SIZE = Done (slice (i * CS) CS source)).
      { unfold load_bytes. destruct (Z.leb_spec 0 (Z.of_nat i * CHUNK_SIZE)); [|unfold CHUNK_SIZE in *; lia].
        destruct (Z.leb_spec (Z.of_nat i * CHUNK_SIZE + CHUNK_SIZE) (lenZ source)); [|unfold CHUNK_SIZE in *; lia].
        cbn [andb]. unfold slice. do 2 f_equal. unfold CHUNK_SIZE. rewrite CE. f_equal. lia. }
      rewrite LB, bind_done, HO.
      assert (LS : length (slice (i * CS) CS source) = CS).
      { apply slice_length. unfold lenZ in HL. rewrite CE. lia. }
      replace (Z.of_nat off + Z.of_nat i * CHUNK_SIZE) with (Z.of_nat (off + i * CS)) by (rewrite CE; unfold CHUNK_SIZE; lia).
      destruct (store_nth mem (slice (i * CS) CS source) (off + i * CS)) as (m1 & E & L1 & B1 & W1 & W2).
      { rewrite LS. rewrite CE in *. lia. }
      rewrite E, bind_done. rewrite LS in *. apply CONT; auto.
      - apply B1; auto. now apply is_bytes_slice.
      - intros _ k Hk. rewrite W1 by auto. now apply nth_slice. }
    apply CONT; auto. contradiction.
Qed.

Lemma prepare_debug b : forall sizes i mem, Forall (fun n => 0 < n <= COMPRESSIBLE_THRESHOLD) sizes ->
  prepare false b i sizes mem = prepare true b i sizes mem.
Proof.
  induction sizes as [|n sizes IH]; intros i mem F; [reflexivity|]. inversion F as [|? ? F1 F2]; subst. cbn [prepare].
  unfold COMPRESSIBLE_THRESHOLD in *. destruct (Z.eqb_spec n 0); [lia|]. destruct (Z.eqb_spec n CHUNK_SIZE); [lia|].
  destruct (Z.ltb_spec 0 n); [|lia]. destruct (Z.leb_spec n (CHUNK_SIZE - 16 - 8)); [|lia]. cbn [negb andb]. now rewrite IH.
Qed.

Lemma decomp_block nd rets0 paddr mem b source off :
  nd = true \/ (forall j, (j < 16)%nat -> nth j (b_sizes b) 0 <> CHUNK_SIZE) ->
  is_bytes source -> BLOCK_SIZE <= lenZ source -> block_of source off b -> is_bytes mem -> length rets0 = 16%nat ->
  0 <= off -> off + BLOCK_SIZE <= lenZ mem ->
  decomp_handle_block nd gd rets0 paddr mem b =
    Done (Some (true, firstn (Z.to_nat off) mem ++ slice 0 (16 * CS) source ++ skipn (Z.to_nat off + 16 * CS) mem)).
Proof.
  intros HND Hs LS (B1 & B2 & B3 & B4 & B6 & B5) HM LR O1 O2. unfold decomp_handle_block.
  assert (BE : BLOCK_SIZE = 16 * 65536) by reflexivity. assert (CE : CS = Z.to_nat 65536) by reflexivity.
  set (o := Z.to_nat off) in *. assert (OE : off = Z.of_nat o) by (unfold o; lia).
  assert (LM : (o + 16 * CS <= length mem)%nat) by (unfold lenZ in O2; lia).
  destruct (prepare_ok b source o B3 ltac:(lia) Hs ltac:(lia) (b_sizes b) 0 mem HM ltac:(lia) LM) as (ilens & m1 & E & P1 & P2 & P3 & P4 & P5 & P6).
  change (Z.of_nat 0) with 0 in E.
  assert (END : prepare nd b 0 (b_sizes b) mem = prepare true b 0 (b_sizes b) mem).
  { destruct nd; [reflexivity|]. destruct HND as [H|HND]; [discriminate H|]. apply prepare_debug, Forall_nth.
    intros j d Hj. rewrite (nth_indep _ _ 0) by auto. rewrite B4 in Hj. destruct (B5 j Hj) as [H|[H _]]; [now apply HND in H|exact H]. }
  rewrite END. rewrite E, bind_done. rewrite B4 in *. rewrite B2, B1. fold o.
  destruct (match b_buffer b with Some p => p | None => (0, []) end) as [baddr buf] eqn:EB.
  assert (RAWC : forall j, (j < 16)%nat -> nth j ilens 0 = SIZE_MAX \/ nth j ilens 0 <> SIZE_MAX) by (intros; lia).
  assert (LIVE : forall j, live NUM_CHUNKS_PER_BLOCK ilens j -> (j < 16)%nat /\ nth j ilens 0 = nth j (b_sizes b) 0 /\
     0 < nth j (b_sizes b) 0 <= COMPRESSIBLE_THRESHOLD /\ lenZ buf = BLOCK_SIZE /\ is_bytes buf /\
     is_compressed (slice (j * CS) CS source) (slice (j * CS) (Z.to_nat (nth j (b_sizes b) 0)) buf)).
  { intros j [Hj NL]. rewrite n16 in Hj. split; auto. rewrite P4 in NL |- * by lia.
    destruct (B5 j Hj) as [RW|(SZ & ba & bu & EBB & Q1 & Q2 & Q3)].
    - rewrite RW in NL. exfalso. apply NL. reflexivity.
    - rewrite EBB in EB. injection EB as <- <-.
      destruct (Z.eqb_spec (nth j (b_sizes b) 0) 0); [lia|]. unfold COMPRESSIBLE_THRESHOLD in *.
      destruct (Z.eqb_spec (nth j (b_sizes b) 0) CHUNK_SIZE); [lia|]. cbn [orb]. auto 10. }
  assert (NLIVE : forall j, (j < 16)%nat -> ~ live NUM_CHUNKS_PER_BLOCK ilens j -> nth j (b_sizes b) 0 = CHUNK_SIZE).
  { intros j Hj NL. destruct (B5 j Hj) as [RW|(SZ & _)]; auto. exfalso. apply NL. split; [rewrite n16; lia|]. rewrite P4 by lia.
    destruct (Z.eqb_spec (nth j (b_sizes b) 0) 0); [lia|]. unfold COMPRESSIBLE_THRESHOLD in *.
    destruct (Z.eqb_spec (nth j (b_sizes b) 0) CHUNK_SIZE); [lia|]. cbn [orb]. unfold SIZE_MAX, CHUNK_SIZE in *. lia. }
  assert (BUF : is_bytes buf).
  { destruct (b_buffer b) as [[ba bu]|] eqn:BB; [|injection EB as <- <-; constructor]. injection EB as <- <-. eapply B6; reflexivity. }
  set (out := skipn o m1).
  assert (LO : lenZ out = lenZ mem - off) by (unfold out, lenZ; rewrite skipn_length; unfold lenZ in O2; lia).
  assert (BO : is_bytes out) by now apply is_bytes_skipn.
  assert (LIN : forall j, (j < 16)%nat -> lenZ (slice (j * CS) CS source) = CHUNK_SIZE).
  { intros j Hj. unfold lenZ in *. rewrite slice_length; unfold CHUNK_SIZE in *; rewrite CE in *; lia. }
  assert (SG : forall j, live NUM_CHUNKS_PER_BLOCK ilens j ->
     single fd baddr buf CHUNK_SIZE ilens (paddr + off) out CHUNK_SIZE (List.repeat CHUNK_SIZE 16) j = Done (0, CHUNK_SIZE, slice (j * CS) CS source)).
  { intros j Hj. destruct (LIVE j Hj) as (Hj16 & IE & SZ & LB & BB & CO). unfold single. rewrite nth_repeat16, IE by auto.
    replace (Z.to_nat (Z.of_nat j * CHUNK_SIZE)) with (j * CS)%nat by (unfold CS, CHUNK_SIZE; lia).
    pose proof (LIN j Hj16) as LJ. rewrite <- LJ at 5. 
    apply (decomp_single e); auto.
    - now apply is_bytes_slice.
    - rewrite LJ. reflexivity.
    - rewrite LJ. unfold CHUNK_SIZE, UINT_MAX. lia.
    - now apply is_bytes_slice.
    - rewrite LJ. split; [reflexivity|]. apply Z.eq_le_incl, eq_sym.
      replace (j * CS)%nat with (Z.to_nat (Z.of_nat j * CHUNK_SIZE)) by (unfold CS, CHUNK_SIZE; lia).
      apply slice_lenZ; [discriminate|]. rewrite LO. clear - BE CE O2 Hj16. unfold CHUNK_SIZE. lia.
    - unfold CHUNK_SIZE. lia. }
  destruct (GDS NUM_CHUNKS_PER_BLOCK rets0 baddr buf CHUNK_SIZE ilens (paddr + off) out CHUNK_SIZE (List.repeat CHUNK_SIZE 16))
    as (ret & rets & olens & out' & E2 & Q1 & _ & LR' & LO' & LO2 & BB' & Q2); auto.
  - unfold NUM_CHUNKS_PER_BLOCK, UINT_MAX. lia.
  - split; [unfold lenZ; rewrite P1; reflexivity|]. split; [reflexivity|]. split; [unfold lenZ; rewrite LR; reflexivity|].
    do 2 (split; [unfold CHUNK_SIZE; lia|]).
    intros j Hj. destruct (LIVE j Hj) as (Hj16 & IE & SZ & LB & BB & CO). rewrite nth_repeat16, IE by auto. rewrite LB, LO.
    unfold COMPRESSIBLE_THRESHOLD, CHUNK_SIZE in *. lia.
  - unfold NUM_CHUNKS_PER_BLOCK, CHUNK_SIZE. lia.
  - unfold NUM_CHUNKS_PER_BLOCK, CHUNK_SIZE. lia.
  - intros j Hj. rewrite SG by auto. eauto.
  - assert (R0 : ret = 0).
    { destruct Hfd as [H|[H|[]]]; apply pair_inj in H; destruct H as [_ H]; rewrite <- H in E2; eapply chunked_ret; exact E2. }
    rewrite E2, bind_done, R0.
    assert (FIN : negb nd && negb (forallb (fun r => r =? 0) rets && forallb (fun n => n =? CHUNK_SIZE) olens) = false).
    { destruct nd; [reflexivity|]. destruct HND as [H|HND]; [discriminate H|]. cbn [negb andb]. apply negb_false_iff, andb_true_iff.
      assert (ALL : forall j, (j < 16)%nat -> nth j rets 0 = 0 /\ nth j olens 0 = CHUNK_SIZE).
      { intros j Hj. assert (LV : live NUM_CHUNKS_PER_BLOCK ilens j).
        { split; [now rewrite n16|]. intros NL. apply (HND j Hj), NLIVE; auto. intros [_ X]. now apply X. }
        specialize (Q1 j LV). rewrite SG in Q1 by auto. apply done_inj in Q1. unfold seen in Q1.
        apply pair_inj in Q1. destruct Q1 as [Q1 _]. apply pair_inj in Q1. destruct Q1 as [<- <-]. auto. }
      split; apply forallb_forall; intros v Hv; apply (In_nth _ _ 0) in Hv; destruct Hv as (j & Hj & <-); apply Z.eqb_eq, ALL.
      - now rewrite <- LR, <- LR'.
      - rewrite LO' in Hj. exact Hj. }
    rewrite FIN. cbn [Z.eqb negb]. do 3 f_equal.
    assert (LF : length (firstn o m1) = o) by (rewrite firstn_length; lia).
    assert (LF' : length (firstn o mem) = o) by (rewrite firstn_length; lia).
    assert (LSL : length (slice 0 (16 * CS) source) = (16 * CS)%nat).
    { apply slice_length. unfold lenZ in LS. rewrite CE. lia. }
    assert (LOUT : length out = (length mem - o)%nat) by (unfold out; rewrite skipn_length; lia).
    apply nth_ext with (d := 0) (d' := 0).
    { rewrite !app_length, LF, LF', LSL, LO2, LOUT, skipn_length. lia. }
    intros k Hk.
    destruct (Nat.lt_ge_cases k o) as [K|K].
    { rewrite !app_nth1 by lia. rewrite !nth_firstn_gen by lia. apply P6. intros. lia. }
    rewrite app_nth2 by lia. rewrite LF. rewrite app_nth2 by lia. rewrite LF'.
    destruct (Nat.lt_ge_cases (k - o) (16 * CS)) as [K2|K2].
    + rewrite app_nth1 by lia. rewrite nth_slice by lia. cbn [Nat.add].
      set (q := (k - o)%nat) in *.
      destruct (split_index q CS ltac:(rewrite CE; lia)) as (j & i & QE & IB).
      assert (JB : (j < 16)%nat) by nia.
      assert (DEC : live NUM_CHUNKS_PER_BLOCK ilens j \/ ~ live NUM_CHUNKS_PER_BLOCK ilens j).
      { unfold live. rewrite n16. destruct (Z.eq_dec (nth j ilens 0) SIZE_MAX); [right; tauto|left; auto]. }
      destruct DEC as [LV|NL].
      * specialize (Q1 j LV). rewrite SG in Q1 by auto. unfold seen in Q1.
        assert (PE : (0, CHUNK_SIZE, slice (j * CS) CS source) = (nth j rets 0, nth j olens 0, slice (Z.to_nat (Z.of_nat j * CHUNK_SIZE)) (Z.to_nat (nth j olens 0)) out')) by (now apply done_inj).
        apply pair_inj in PE. destruct PE as [PE Ez]. apply pair_inj in PE. destruct PE as [Er En]. rewrite <- En in Ez.
        rewrite QE. transitivity (nth i (slice (j * CS) CS source) 0).
        -- rewrite Ez. fold CS. rewrite nth_slice by auto. f_equal. f_equal. unfold CS, CHUNK_SIZE. lia.
        -- now rewrite nth_slice by auto.
      * rewrite Q2.
        -- unfold out. rewrite nth_skipn_gen, QE. rewrite Nat.add_assoc. pose proof (P5 j i JB (NLIVE j JB NL) IB) as X. cbn [Nat.add] in X. exact X.
        -- intros j' LV. destruct (LIVE j' LV) as (Hj16 & _). rewrite nth_repeat16 by auto.
           assert (j' <> j) by (intros ->; contradiction). unfold CHUNK_SIZE. rewrite CE in *. nia.
    + rewrite app_nth2 by lia. rewrite LSL, nth_skipn_gen. rewrite Q2.
      * unfold out. rewrite nth_skipn_gen, P6; [f_equal; lia|]. intros j Hj _. nia.
      * intros j' LV. destruct (LIVE j' LV) as (Hj16 & _). rewrite nth_repeat16 by auto. unfold CHUNK_SIZE. rewrite CE in *. lia.
Qed.
End Block.
