(** Round trip of a block through the two streams; where it fails. *)
From Coq Require Import ZArith List Bool Lia.
From Verif Require Import SpecBits SpecCrc Spec842 CBase BitsLemmas SerialCompModel SerialDecompModel SerialFacts SerialValid SpecCalls SerialProps OptProps ChunkedModel SpecChunked ChunkedProofs StreamBlockModel SpecBlock StreamBlockProofs Expansion.
Import ListNotations.
Open Scope Z_scope.

Lemma in_comp e gc : In gc [sw842_compress_chunked e; optsw842_compress_chunked e] ->
  exists fc, In (fc, gc) [(sw842_compress_f e, sw842_compress_chunked e); (optsw842_compress_f e, optsw842_compress_chunked e)].
Proof. intros [<-|[<-|[]]]; eexists; [left|right; left]; reflexivity. Qed.
Lemma in_decomp e gd : In gd [sw842_decompress_chunked e; optsw842_decompress_chunked e] ->
  exists fd, In (fd, gd) [(sw842_decompress_f e, sw842_decompress_chunked e); (optsw842_decompress_f e, optsw842_decompress_chunked e)].
Proof. intros [<-|[<-|[]]]; eexists; [left|right; left]; reflexivity. Qed.
Lemma block_CS : Z.to_nat BLOCK_SIZE = (16 * CS)%nat.
Proof. unfold BLOCK_SIZE, NUM_CHUNKS_PER_BLOCK, CS. rewrite Z2Nat.inj_mul by discriminate. reflexivity. Qed.
Lemma restored_eq src mem off : 0 <= off ->
  firstn (Z.to_nat off) mem ++ slice 0 (16 * CS) (skipn (Z.to_nat off) src) ++ skipn (Z.to_nat off + 16 * CS) mem = restored src mem off.
Proof.
  intros H. unfold restored. rewrite Z2Nat.inj_add by (auto; discriminate). rewrite block_CS. unfold slice. rewrite skipn_O. reflexivity.
Qed.

Lemma c35 e gc gd rets0 paddr src baddr buf off :
  In gc [sw842_compress_chunked e; optsw842_compress_chunked e] ->
  In gd [sw842_decompress_chunked e; optsw842_decompress_chunked e] ->
  is_bytes src -> is_bytes buf -> lenZ buf = BLOCK_SIZE -> length rets0 = 16%nat -> 0 <= off -> off + BLOCK_SIZE <= lenZ src ->
  exists b, comp_handle_block gc rets0 paddr src baddr buf off = Done b /\ b_offset b = off /\
    forall ndebug rets1 qaddr mem, is_bytes mem -> off + BLOCK_SIZE <= lenZ mem -> length rets1 = 16%nat ->
      (ndebug = true \/ forall j, ~ stored_raw b j) ->
      decomp_handle_block ndebug gd rets1 qaddr mem b = Done (Some (true, restored src mem off)).
Proof.
  intros Hc Hd Hs Hb LB LR O1 O2. destruct (in_comp _ _ Hc) as [fc Hfc]. destruct (in_decomp _ _ Hd) as [fd Hfd].
  destruct (comp_block e fc gc Hfc rets0 paddr src baddr buf off Hs Hb LB LR O1 O2) as (b & E & BO).
  exists b. split; [exact E|]. split; [apply BO|]. intros nd rets1 qaddr mem HM LM L1 ND.
  rewrite (decomp_block e fd gd Hfd nd rets1 qaddr mem b (skipn (Z.to_nat off) src) off); auto.
  - now rewrite restored_eq.
  - destruct ND as [ND|ND]; auto. right. intros j Hj E1. apply (ND j). exact (conj Hj E1).
  - now apply is_bytes_skipn.
  - unfold lenZ in *. rewrite skipn_length. lia.
Qed.

(** A source whose chunks cannot be compressed. *)
Definition hard_source : list Z := ramp (Z.to_nat 524288) 0.
Lemma hard_length : lenZ hard_source = BLOCK_SIZE.
Proof. unfold lenZ, hard_source. rewrite ramp_length. rewrite Nat2Z.inj_mul, Z2Nat.id by discriminate. reflexivity. Qed.
Lemma ramp_firstn n : forall m k, (m <= n)%nat -> firstn (2 * m) (ramp n k) = ramp m k.
Proof.
  induction n as [|n IH]; intros [|m] k H; try lia; try reflexivity.
  replace (2 * S m)%nat with (S (S (2 * m))) by lia. cbn [ramp firstn]. now rewrite IH by lia.
Qed.
Lemma hard_chunk : slice (0 * CS) CS hard_source = ramp (Z.to_nat 32768) 0.
Proof.
  change (0 * CS)%nat with 0%nat. unfold slice, hard_source. rewrite (skipn_O (ramp (Z.to_nat 524288) 0)).
  replace CS with (2 * Z.to_nat 32768)%nat by (unfold CS, CHUNK_SIZE; lia). apply ramp_firstn. lia.
Qed.
Lemma hard_raw b off : block_of hard_source off b -> nth 0 (b_sizes b) 0 = CHUNK_SIZE.
Proof.
  intros (_ & _ & _ & _ & _ & B5). destruct (B5 0%nat ltac:(lia)) as [H|(SZ & ba & bu & _ & LB & BB & C)]; auto. exfalso.
  rewrite hard_chunk in C.
  assert (LX : lenZ (ramp (Z.to_nat 32768) 0) = 65536) by (unfold lenZ; rewrite ramp_length, Nat2Z.inj_mul, Z2Nat.id by discriminate; reflexivity).
  apply compressed_valid in C; [|apply ramp_bytes|now rewrite LX].
  destruct C as (_ & V & _ & _).
  apply distinct_size in V; [|apply ramp_distinct; rewrite Z2Nat.id; discriminate].
  rewrite LX in V. unfold lenZ in V. unfold slice in V. rewrite firstn_length in V. unfold COMPRESSIBLE_THRESHOLD, CHUNK_SIZE in *. lia.
Qed.

Lemma c35_refuted e gc gd rets0 rets1 paddr qaddr baddr buf mem :
  In gc [sw842_compress_chunked e; optsw842_compress_chunked e] ->
  is_bytes buf -> lenZ buf = BLOCK_SIZE -> length rets0 = 16%nat ->
  is_bytes hard_source /\ lenZ hard_source = BLOCK_SIZE /\
  exists b, comp_handle_block gc rets0 paddr hard_source baddr buf 0 = Done b /\
    decomp_handle_block false gd rets1 qaddr mem b = Done None.
Proof.
  intros Hc Hb LB LR. split; [apply ramp_bytes|]. split; [apply hard_length|].
  destruct (in_comp _ _ Hc) as [fc Hfc].
  destruct (comp_block e fc gc Hfc rets0 paddr hard_source baddr buf 0 (ramp_bytes _ _) Hb LB LR) as (b & E & BO);
    [lia|rewrite hard_length; lia|].
  exists b. split; [exact E|]. rewrite Z2Nat.inj_0, skipn_O in BO. pose proof (hard_raw _ _ BO) as R.
  destruct BO as (_ & _ & B3 & B4 & _). unfold decomp_handle_block.
  destruct (b_sizes b) as [|n sizes]; [discriminate|]. cbn [nth] in R. subst n. cbn [prepare].
  rewrite B3. reflexivity.
Qed.

(** ** Errors of a chunk *)
Lemma c39_never e gd rets0 paddr mem b r m : In gd [sw842_decompress_chunked e; optsw842_decompress_chunked e] ->
  decomp_handle_block true gd rets0 paddr mem b = Done (Some (r, m)) -> r = true.
Proof.
  intros Hd E. unfold decomp_handle_block in E.
  destruct (prepare true b 0 (b_sizes b) mem) as [[[ilens m1]|]| |]; cbn [bind] in E; try discriminate E.
  destruct (match b_buffer b with Some p => p | None => (0, []) end) as [baddr buf].
  destruct (gd NUM_CHUNKS_PER_BLOCK rets0 baddr buf (b_padding b) ilens (paddr + b_offset b) (skipn (Z.to_nat (b_offset b)) m1) CHUNK_SIZE (repeat CHUNK_SIZE 16))
    as [[[[ret rets] olens] out']| |] eqn:E2; cbn [bind] in E; try discriminate E.
  assert (ret = 0) by (destruct Hd as [<-|[<-|[]]]; eapply chunked_ret; exact E2). subst ret.
  cbn [Z.eqb negb andb] in E. injection E as <- _. reflexivity.
Qed.

(** A block with one chunk that is not an 842 stream. *)
Definition bad_block : block :=
  mkBlock 0 CHUNK_SIZE None (8 :: List.repeat 0 15) (Some (0, List.repeat 255 (Z.to_nat BLOCK_SIZE))).
Definition some_mem : list Z := List.repeat 7 (Z.to_nat BLOCK_SIZE).
Lemma bad_check :
  (match decomp_handle_block true (sw842_decompress_chunked LE) (List.repeat 0 16) 0 some_mem bad_block with
   | Done (Some (true, _)) => true | _ => false end) &&
  (match decomp_handle_block false (sw842_decompress_chunked LE) (List.repeat 0 16) 0 some_mem bad_block with
   | Done None => true | _ => false end) &&
  (match sw842_decompress LE 0 (List.repeat 255 8) (List.repeat 7 (Z.to_nat CHUNK_SIZE)) CHUNK_SIZE with
   | Done (r, _, _) => r =? - EINVAL | _ => false end) = true.
Proof. vm_compute. reflexivity. Qed.
Lemma c39_refuted :
  (exists m, decomp_handle_block true (sw842_decompress_chunked LE) (List.repeat 0 16) 0 some_mem bad_block = Done (Some (true, m))) /\
  decomp_handle_block false (sw842_decompress_chunked LE) (List.repeat 0 16) 0 some_mem bad_block = Done None /\
  exists m n, sw842_decompress LE 0 (List.repeat 255 8) (List.repeat 7 (Z.to_nat CHUNK_SIZE)) CHUNK_SIZE = Done (- EINVAL, n, m).
Proof.
  pose proof bad_check as H. apply andb_true_iff in H. destruct H as [H H3]. apply andb_true_iff in H. destruct H as [H1 H2].
  split; [|split].
  - destruct (decomp_handle_block true (sw842_decompress_chunked LE) (List.repeat 0 16) 0 some_mem bad_block) as [[[[|] m]|]| |]; try discriminate H1. eauto.
  - destruct (decomp_handle_block false (sw842_decompress_chunked LE) (List.repeat 0 16) 0 some_mem bad_block) as [[[[|] m]|]| |]; try discriminate H2. auto.
  - destruct (sw842_decompress LE 0 (List.repeat 255 8) (List.repeat 7 (Z.to_nat CHUNK_SIZE)) CHUNK_SIZE) as [[[r n] m]| |]; try discriminate H3.
    apply Z.eqb_eq in H3. subst r. eauto.
Qed.

(** ** The bound on the compressed size is attained *)
Lemma c51 e addr inp out olen n m : is_bytes inp -> is_bytes out -> 0 <= olen <= lenZ out -> lenZ inp mod 8 = 0 -> distinct16 inp ->
  sw842_compress e addr inp out olen = Done (0, n, m) -> n = words64 (69 * (lenZ inp / 8) + 37).
Proof.
  intros Hi Ho Hc M8 DX E.
  assert (Hn : 0 <= n <= lenZ m).
  { destruct (sw842_compress_out e addr inp out olen Hi Ho Hc) as [(A & B & m' & E' & F' & _)|(A & m' & E' & _)];
      rewrite E' in E; [|discriminate E]. injection E as <- <-. unfold lenZ. apply (f_equal (@length Z)) in F'. rewrite firstn_length in F'. lia. }
  set (z := firstn (Z.to_nat n) m).
  assert (LZ : lenZ z = n) by (unfold z, lenZ in *; rewrite firstn_length; lia).
  assert (C : is_compressed inp z).
  { exists e, out, olen. split; auto. split; auto. left. exists addr, m. rewrite LZ. split; auto.
    unfold z at 2. f_equal. unfold lenZ in LZ. lia. }
  destruct (compressed_valid inp z Hi M8 C) as (_ & V & _). apply distinct_size in V; auto. rewrite LZ in V.
  destruct (c04 e addr inp out olen n m Hi Ho Hc E) as (N8 & NB & _). unfold max_bits in NB. rewrite M8 in NB. cbn [Z.eqb] in NB. rewrite Z.add_0_r in NB.
  unfold words64 in *. set (b := 69 * (lenZ inp / 8) + 37) in *.
  assert (B : 69 * lenZ inp + 8 * 37 = 8 * b) by (unfold b; pose proof (Z.div_mod (lenZ inp) 8); lia).
  pose proof (Z.div_mod n 8 ltac:(lia)) as DN. pose proof (Z.div_mod (b + 63) 64 ltac:(lia)). pose proof (Z.mod_pos_bound (b + 63) 64). lia.
Qed.
Lemma c51_data n : Z.of_nat n <= 65536 -> exists x, is_bytes x /\ length x = (2 * n)%nat /\ distinct16 x.
Proof. intros H. exists (ramp n 0). split; [apply ramp_bytes|]. split; [apply ramp_length|now apply ramp_distinct]. Qed.
Lemma firstn_repeat {A} (v : A) n : forall k, (n <= k)%nat -> firstn n (List.repeat v k) = List.repeat v n.
Proof. induction n as [|n IH]; intros [|k] H; try lia; auto. cbn [repeat firstn]. now rewrite IH by lia. Qed.
Lemma c39_witness :
  exists b mem, b_sizes b = 8 :: List.repeat 0 15 /\
  (exists buf, b_buffer b = Some (0, buf) /\ firstn 8 buf = List.repeat 255 8) /\
  (exists m n, sw842_decompress LE 0 (List.repeat 255 8) (firstn (Z.to_nat CHUNK_SIZE) mem) CHUNK_SIZE = Done (- EINVAL, n, m)) /\
  (exists m, decomp_handle_block true (sw842_decompress_chunked LE) (List.repeat 0 16) 0 mem b = Done (Some (true, m))) /\
  decomp_handle_block false (sw842_decompress_chunked LE) (List.repeat 0 16) 0 mem b = Done None.
Proof.
  destruct c39_refuted as (A & B & C). exists bad_block, some_mem. split; [reflexivity|]. split.
  - exists (List.repeat 255 (Z.to_nat BLOCK_SIZE)). split; [reflexivity|]. apply firstn_repeat. unfold BLOCK_SIZE, NUM_CHUNKS_PER_BLOCK, CHUNK_SIZE. lia.
  - split; [|split; assumption]. unfold some_mem. rewrite firstn_repeat; [exact C|]. unfold BLOCK_SIZE, NUM_CHUNKS_PER_BLOCK, CHUNK_SIZE. lia.
Qed.
