(** The extent of three failures: C46 (very long inputs), C50 (very many chunks), C57 (the CRC of the OpenCL kernel). What
    PropSerial.v, PropChunked.v and PropOcl.v refute with one input each is shown here to fail for every input concerned, and
    for the second to hold for all others. *)
From Coq Require Import ZArith List Bool Lia.
From Verif Require Import SpecBits SpecCrc Spec842 SpecCalls CBase BitsLemmas SerialCompModel SerialDecompModel SerialProps
  OptDecompModel OptProps OclModel SpecOcl OclProps ChunkedModel ChunkedProofs PropSerial PropOpt PropOcl OptFinds.
Import ListNotations.
Open Scope Z_scope.

(** C46: no input of more than UINT_MAX bytes that sw842_compress compresses is ever restored: whatever the
    capacity, sw842_decompress returns -ENOSPC. *)
Theorem C46_never_restored_refuted : forall e e' addr oaddr inp out olen n m out2 olen2,
  is_bytes inp -> UINT_MAX < lenZ inp -> is_bytes out -> 0 <= olen <= lenZ out ->
  sw842_compress e addr inp out olen = Done (0, n, m) ->
  is_bytes out2 -> 0 <= olen2 <= lenZ out2 -> olen2 < 2 ^ 63 ->
  observed (sw842_decompress e' oaddr (firstn (Z.to_nat n) m) out2 olen2) = Done (- ENOSPC, 0, []).
Proof.
  intros e e' addr oaddr inp out olen n m out2 olen2 Hi Hl Ho Hc E Ho2 Hc2 H63.
  destruct (c02 inp Hi) as (z & Bz & Vz & HZ). pose proof (HZ e addr out olen Ho Hc) as EZ. rewrite E in EZ.
  destruct ((lenZ z <=? olen) && (lenZ z <=? UINT_MAX)); [|discriminate].
  cbn [observed] in EZ. apply Done_inj in EZ. assert (F : firstn (Z.to_nat n) m = z) by congruence. rewrite F.
  destruct (Z_le_gt_dec (lenZ inp) olen2) as [L|L].
  - rewrite (decomp_valid e' oaddr z out2 olen2 inp Bz Ho2 Hc2 H63 Vz L). rewrite Z.gtb_ltb.
    destruct (Z.ltb_spec UINT_MAX (lenZ inp)); [|lia]. reflexivity.
  - destruct Vz as (rest & V). destruct (c15 e' oaddr z out2 olen2 inp _ Bz Ho2 Hc2 H63 V ltac:(lia)) as (m2 & E2). rewrite E2. reflexivity.
Qed.
Print Assumptions C46_never_restored_refuted.
(** There are such inputs: the one of C46_huge_input_round_trip_refuted. *)
Example C46_case : exists inp out olen n m, is_bytes inp /\ UINT_MAX < lenZ inp /\ is_bytes out /\ 0 <= olen <= lenZ out /\
  sw842_compress LE 0 inp out olen = Done (0, n, m).
Proof.
  destruct C46_huge_input_round_trip_refuted as (inp & Hi & Hl & olen & out & Ho & Hc & H). destruct (H LE 0) as (n & m & E & _).
  exists inp, out, olen, n, m. rewrite Hl. split; auto. split; [reflexivity|]. split; auto. split; auto.
  unfold lenZ in *. lia.
Qed.

(** C50, the proved part: for up to UINT_MAX chunks, whatever the strides, sizes and buffers, the chunked function ends unless the
    single-chunk function itself does not end. *)
Theorem C50_chunked_terminates_partial : forall call n rets iaddr inp istride ilens oaddr out ostride olens,
  0 <= n <= UINT_MAX ->
  chunked call n rets iaddr inp istride ilens oaddr out ostride olens = NoFuel ->
  exists ia oa ib ob cap, call ia oa ib ob cap = NoFuel.
Proof.
  intros call n rets iaddr inp istride ilens oaddr out ostride olens Hn. unfold chunked.
  assert (G : forall fuel i s d ret rets out olens, 0 <= i -> n - i < Z.of_nat fuel ->
    chunk_loop call fuel n istride ostride iaddr oaddr inp ilens i s d ret rets out olens = NoFuel ->
    exists ia oa ib ob cap, call ia oa ib ob cap = NoFuel).
  { induction fuel as [|f IH]; intros i s d ret rets0 out0 olens0 Hi HF; cbn [chunk_loop]; destruct (Z.ltb_spec i n); try discriminate; [lia|].
    assert (U : u32 (i + 1) = i + 1) by (unfold u32; apply Z.mod_small; unfold UINT_MAX in *; lia). rewrite U.
    unfold aget. destruct ((0 <=? i) && (i <? lenZ ilens)); cbn [bind]; [|discriminate].
    destruct (nth (Z.to_nat i) ilens 0 =? SIZE_MAX). { apply IH; lia. }
    destruct (load_bytes inp s (nth (Z.to_nat i) ilens 0)) as [ib| |] eqn:LB; cbn [bind]; try discriminate.
    2:{ exfalso. unfold load_bytes in LB. destruct (_ && _); discriminate. }
    destruct ((0 <=? i) && (i <? lenZ olens0)); cbn [bind]; [|discriminate].
    destruct (d >? lenZ out0); [discriminate|].
    destruct (call (iaddr + s) (oaddr + d) ib (skipn (Z.to_nat d) out0) (nth (Z.to_nat i) olens0 0)) as [[[r k] m]| |] eqn:C; cbn [bind];
      [|discriminate|intros _; eauto 10].
    unfold aset. destruct ((0 <=? i) && (i <? lenZ rets0)); cbn [bind]; [|discriminate].
    destruct ((0 <=? i) && (i <? lenZ olens0)); cbn [bind]; [|discriminate]. apply IH; lia. }
  apply G; lia.
Qed.
Print Assumptions C50_chunked_terminates_partial.
(** Beyond, it never returns, whatever the single-chunk function and its arguments. *)
Theorem C50_never_returns_refuted : forall call fuel n rets iaddr inp istride ilens oaddr out ostride olens v, UINT_MAX < n ->
  chunk_loop call fuel n istride ostride iaddr oaddr inp ilens 0 0 0 0 rets out olens <> Done v.
Proof.
  intros call fuel n rets iaddr inp istride ilens oaddr out ostride olens v Hn.
  assert (G : forall fuel i s d ret rets out olens, 0 <= i <= UINT_MAX ->
    chunk_loop call fuel n istride ostride iaddr oaddr inp ilens i s d ret rets out olens <> Done v).
  { induction fuel0 as [|f IH]; intros i s d ret rets0 out0 olens0 Hi; cbn [chunk_loop]; destruct (Z.ltb_spec i n); try discriminate; [lia| |lia].
    assert (U : 0 <= u32 (i + 1) <= UINT_MAX) by (unfold u32, UINT_MAX; pose proof (Z.mod_pos_bound (i + 1) (2 ^ 32)); lia).
    destruct (aget ilens i) as [il| |]; cbn [bind]; try discriminate.
    destruct (il =? SIZE_MAX); [now apply IH|].
    destruct (load_bytes inp s il) as [ib| |]; cbn [bind]; try discriminate.
    destruct (aget olens0 i) as [cap| |]; cbn [bind]; try discriminate.
    destruct (d >? lenZ out0); [discriminate|].
    destruct (call _ _ ib _ cap) as [[[r k] m]| |]; cbn [bind]; try discriminate.
    destruct (aset rets0 i r) as [rets1| |]; cbn [bind]; try discriminate.
    destruct (aset olens0 i k) as [olens1| |]; cbn [bind]; try discriminate. now apply IH. }
  apply G. unfold UINT_MAX. lia.
Qed.
Print Assumptions C50_never_returns_refuted.
Example C50_case : exists a b m, chunked (sw842_compress_f LE) 3 [9;9;9] 0 (List.repeat 9 8 ++ List.repeat 7 16) 8 [8;16;SIZE_MAX] 0 (List.repeat 170 100) 32 [32;32;4] = Done (0, a, b, m).
Proof. do 3 eexists. vm_compute. reflexivity. Qed.

(** C57: the kernel accepts every stream with a wrong CRC, however the data differs; the software decompressor refuses each of them. *)
Theorem C57_crc_ignored_refuted : forall e e' iaddr oaddr inp out olen out2 olen2 x c rest,
  is_bytes inp -> lenZ inp mod 8 = 0 -> is_bytes out -> 0 <= olen <= lenZ out -> olen < 2 ^ 63 ->
  is_bytes out2 -> 0 <= olen2 <= lenZ out2 -> olen2 < 2 ^ 63 -> iaddr mod 8 = 0 -> oaddr mod 8 = 0 ->
  stream false [] (bytes_bits inp) x (bits_of 32 c ++ rest) -> 0 <= c < 2 ^ 32 -> c <> crc32 x -> lenZ x <= olen -> lenZ x <= olen2 ->
  observed (decompress_core e inp (lenZ inp) out olen) = Done (0, lenZ x, x) /\
  observed (optsw842_decompress e' iaddr oaddr inp out2 olen2) = Done (- EINVAL, 0, []).
Proof.
  intros e e' iaddr oaddr inp out olen out2 olen2 x c rest Hi H8 Ho Hc H63 Ho2 Hc2 H632 A1 A2 HS Hcrc NE L1 L2.
  pose proof (Z.div_mod (lenZ inp) 8 ltac:(lia)) as DM. rewrite H8 in DM.
  assert (F8 : firstn (8 * (length inp / 8)) inp = inp).
  { apply firstn_all2. unfold lenZ in DM. rewrite <- (Nat2Z.id (length inp / 8)), Nat2Z.inj_div. change (Z.of_nat 8) with 8. lia. }
  split.
  - apply C42_ocl_core_exact; auto.
    + unfold lenZ. lia.
    + assert ((lenZ inp + 7) / 8 = lenZ inp / 8).
      { symmetry. apply Z.div_unique with (r := 7); lia. } lia.
    + split; [|exact L1]. rewrite firstn_all2 by (unfold lenZ in *; lia). exists (bits_of 32 c ++ rest). split; [exact HS|].
      rewrite app_length, bits_of_length. lia.
  - destruct (C20_optsw842_decompress_crc_enforced e' iaddr oaddr inp out2 olen2 x c rest Hi Ho2 Hc2 H632 A1 A2 Hcrc ltac:(now rewrite F8) L2 NE) as (m & E).
    rewrite E. reflexivity.
Qed.
Print Assumptions C57_crc_ignored_refuted.
Example C57_case : stream false [] (bytes_bits [231; 128; 0; 0; 64; 0; 0; 0]) (List.repeat 0 8) (bits_of 32 256 ++ repeat false 22) /\
  256 <> crc32 (List.repeat 0 8) /\
  observed (decompress_core LE [231; 128; 0; 0; 64; 0; 0; 0] 8 (obuf 8) 8) = Done (0, 8, List.repeat 0 8) /\
  observed (optsw842_decompress LE 0 0 [231; 128; 0; 0; 64; 0; 0; 0] (obuf 8) 8) = Done (- EINVAL, 0, []).
Proof.
  split; [|split; [vm_compute; discriminate|split; vm_compute; reflexivity]].
  change (bytes_bits [231; 128; 0; 0; 64; 0; 0; 0]) with (bits_of 5 0x1c ++ bits_of 5 0x1e ++ (bits_of 32 256 ++ repeat false 22)).
  apply st_zeros, st_end.
Qed.
