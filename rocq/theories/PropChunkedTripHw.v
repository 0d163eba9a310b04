(** C109 for the cryptodev back end. *)
From Coq Require Import ZArith List Bool Lia.
From Verif Require Import SpecBits SpecCalls CBase BitsLemmas ChunkedModel SpecChunked SpecChunkedTrip ChunkedTrip ChunkedTripHw CryptodevModel SpecCryptodev CryptodevProofs
  PropCryptodev PropChunkedTrip.
Import ListNotations.
Open Scope Z_scope.

(** hw842: with a device that restores the data of single chunks, data that hw842_compress_chunked compressed is restored by
    hw842_decompress_chunked.  [is_bytes out'] says no more than that the memory the device wrote holds bytes. *)
Theorem C109_hw_chunked_round_trip : forall ok fc fd drv max_chunks info t mask p,
  good_driver fc 0 max_chunks drv -> good_driver fd 1 max_chunks drv -> ready t mask p -> codec ok fc fd ->
  forall n rets iaddr inp istride ilens oaddr out ostride olens,
  arguments mask n iaddr istride ilens oaddr ostride olens -> accepted max_chunks mask n iaddr istride ilens oaddr ostride olens ->
  is_bytes inp -> is_bytes out -> areas n rets inp istride ilens out ostride olens ->
  (forall j, (j < Z.to_nat n)%nat -> nth j ilens 0 <> SIZE_MAX /\ ok (chunk_of inp istride ilens j) /\
     let len := nth j ilens 0 in
     let room := words64 (69 * (len / 8) + (if len mod 8 =? 0 then 0 else 8 + 8 * (len mod 8)) + 37) in
     room <= nth j olens 0 < 2 ^ 32 - 1) ->
  exists rets' olens' out', hw842_compress_chunked drv max_chunks info t p n rets iaddr inp istride ilens oaddr out ostride olens = Done (0, rets', olens', out', p) /\
  (forall j, (j < Z.to_nat n)%nat -> nth j rets' 0 = 0) /\
  forall iaddr' oaddr' rets2 back bstride blens, is_bytes out' -> is_bytes back -> lenZ rets2 = n -> lenZ blens = n -> Forall (fun l => 0 <= l) blens ->
  0 <= iaddr' < 2 ^ 64 - 2 ^ 16 -> 0 <= oaddr' < 2 ^ 64 - 2 ^ 16 -> iaddr' mod (mask + 1) = 0 -> oaddr' mod (mask + 1) = 0 ->
  0 <= bstride <= SIZE_MAX -> n * bstride < 2 ^ 32 ->
  (forall j, (j < Z.to_nat n)%nat -> nth j ilens 0 <= nth j blens 0 <= bstride /\ Z.of_nat j * bstride + nth j blens 0 <= lenZ back) ->
  exists rets2' blens' back', hw842_decompress_chunked drv max_chunks info t p n rets2 iaddr' out' ostride olens' oaddr' back bstride blens = Done (0, rets2', blens', back', p) /\
  forall j, (j < Z.to_nat n)%nat -> nth j rets2' 0 = 0 /\ nth j blens' 0 = nth j ilens 0 /\ chunk_of back' bstride ilens j = chunk_of inp istride ilens j.
Proof.
  intros ok fc fd drv maxc info t mask p GC GD R RT n rets iaddr inp istride ilens oaddr out ostride olens AG AC Hi Ho AR CH0.
  assert (CH : forall j, (j < Z.to_nat n)%nat -> nth j ilens 0 <> SIZE_MAX /\ ok (chunk_of inp istride ilens j) /\
    room_for (nth j ilens 0) <= nth j olens 0 /\ room_for (nth j ilens 0) <= UINT_MAX).
  { intros j Hj. destruct (CH0 j Hj) as (NS & OK & RR & LT). fold (room_for (nth j ilens 0)) in RR. split; [exact NS|]. split; [exact OK|]. unfold UINT_MAX. lia. }
  pose proof (compress_defined ok fc fd RT n rets iaddr inp istride ilens oaddr out ostride olens Hi Ho AR CH) as DF.
  destruct (C73_chunked fc drv maxc 0 info t mask p n rets iaddr inp istride ilens oaddr out ostride olens GC R AG AC Hi Ho AR DF) as (rets' & olens' & out' & E & DS).
  destruct DS as (D & _ & Lr & Lo & Lm & _).
  pose proof (step1 ok fc fd RT n rets iaddr inp istride ilens oaddr out ostride olens Hi Ho AR CH rets' olens' out' Lo Lm D) as S1.
  exists rets', olens', out'. split; [exact E|]. split; [intros j Hj; apply (S1 j Hj)|].
  intros iaddr' oaddr' rets2 back bstride blens Bm Bb LR LB FB PI PO AI AO BS WB BJ0.
  destruct AG as (MK & G1 & G2 & G3 & G4 & G5 & G6 & G7 & G8 & G9). destruct AC as (C1 & C2 & C3 & C4 & C5 & C6).
  assert (BJ : forall j, (j < Z.to_nat n)%nat -> nth j ilens 0 <= nth j blens 0 <= bstride /\ Z.of_nat j * bstride + nth j blens 0 <= lenZ back /\ nth j blens 0 < 2 ^ 63).
  { intros j Hj. destruct (BJ0 j Hj) as (B1 & B2). split; [exact B1|]. split; [exact B2|]. assert (1 <= n) by lia. assert (bstride < 2 ^ 32) by nia. lia. }
  pose proof (step2_areas ok fc fd RT n rets iaddr inp istride ilens oaddr out ostride olens Hi Ho AR CH rets' olens' out' Lo Lm D rets2 back bstride blens LR LB (proj1 BS) BJ) as AR2.
  pose proof (step2_single ok fc fd RT n rets iaddr inp istride ilens oaddr out ostride olens Hi Ho AR CH rets' olens' out' Lo Lm D iaddr' oaddr' back bstride blens Bb (proj1 BS) BJ) as SG.
  assert (LO : lenZ olens' = n) by (unfold lenZ in *; lia).
  assert (AG2 : arguments mask n iaddr' ostride olens' oaddr' bstride blens).
  { unfold arguments. split; [exact MK|]. split; [exact PI|]. split; [exact PO|]. split; [exact G3|]. split; [exact G5|]. split; [exact BS|]. split; [exact LO|]. split; [exact LB|]. split.
    - apply Forall_nth. intros j d Hj. assert (HJ : (j < Z.to_nat n)%nat) by (unfold lenZ in LO; lia). rewrite (nth_indep _ d 0) by auto.
      destruct (S1 j HJ) as (_ & B & _). destruct (CH0 j HJ) as (_ & _ & _ & B2). unfold SIZE_MAX. lia.
    - apply Forall_nth. intros j d Hj. assert (HJ : (j < Z.to_nat n)%nat) by (unfold lenZ in LB; lia). rewrite (nth_indep _ d 0) by auto.
      destruct (BJ j HJ) as ((_ & B) & _). split; [|lia]. apply (proj1 (Forall_nth _ _) FB j 0 Hj). }
  assert (AC2 : accepted maxc mask n iaddr' ostride olens' oaddr' bstride blens).
  { unfold accepted. do 5 (split; [assumption|]). intros j HJ. destruct (S1 j HJ) as (_ & B & _). destruct (CH0 j HJ) as (_ & _ & _ & B2).
    split; [right; lia|]. destruct (BJ j HJ) as ((_ & B3) & _). assert (1 <= n) by lia. assert (bstride < 2 ^ 32) by nia. lia. }
  assert (DF2 : all_defined fd n iaddr' out' ostride olens' oaddr' back bstride blens).
  { intros j [HJ _]. destruct (SG j HJ) as (_ & B). eauto. }
  destruct (C73_chunked fd drv maxc 1 info t mask p n rets2 iaddr' out' ostride olens' oaddr' back bstride blens GD R AG2 AC2 Bm Bb AR2 DF2) as (rets2' & blens' & back' & E2 & DS2).
  exists rets2', blens', back'. split; [exact E2|]. intros j Hj. destruct (SG j Hj) as (LV & B). destruct DS2 as (D2 & _). specialize (D2 j LV). rewrite B in D2.
  apply done_inj in D2. unfold seen in D2. injection D2 as Q1 Q2 Q3. split; [auto|]. split; [auto|]. unfold chunk_of at 1. rewrite Q2. auto.
Qed.
Print Assumptions C109_hw_chunked_round_trip.
(** A device that meets the hypotheses runs the software functions; its round trip of two chunks. *)
Definition trip_device (e : endian) : driver := fun q =>
  if q_op q =? 0 then soft_driver 0 (sw842_compress_chunked e) q else soft_driver 1 (sw842_decompress_chunked e) q.
Example C109_hw_device : forall e max_chunks, max_chunks <= UINT_MAX ->
  good_driver (sw842_compress_f e) 0 max_chunks (trip_device e) /\ good_driver (sw842_decompress_f e) 1 max_chunks (trip_device e) /\
  codec (fun _ => True) (sw842_compress_f e) (sw842_decompress_f e).
Proof.
  intros e maxc HM. split; [|split; [|apply C109_aix_hypotheses]].
  - pose proof (C73_library_as_driver e (sw842_compress_f e) (sw842_compress_chunked e) 0 maxc (or_introl eq_refl) HM) as G.
    intros q iaddr inp oaddr out rets istride ostride n ilens olens OP. unfold trip_device. rewrite OP. apply (G q iaddr inp oaddr out rets istride ostride OP).
  - pose proof (C73_library_as_driver e (sw842_decompress_f e) (sw842_decompress_chunked e) 1 maxc (or_intror (or_introl eq_refl)) HM) as G.
    intros q iaddr inp oaddr out rets istride ostride n ilens olens OP. unfold trip_device. rewrite OP. apply (G q iaddr inp oaddr out rets istride ostride OP).
Qed.
Example C109_hw_case : exists rets olens out rets2 lens2 back,
  hw842_compress_chunked (trip_device LE) 16 (Some 63) 7 case_process 2 [9; 9] 128 trip_in 16 [8; 16] 640 (List.repeat 5 128) 64 [64; 64] = Done (0, rets, olens, out, case_process) /\
  hw842_decompress_chunked (trip_device LE) 16 (Some 63) 7 case_process 2 [9; 9] 640 out 64 olens 128 (List.repeat 85 64) 20 [8; 20] = Done (0, rets2, lens2, back, case_process) /\
  olens = [16; 16] /\ rets2 = [0; 0] /\ lens2 = [8; 16] /\ back = [1;2;3;4;5;6;7;8] ++ List.repeat 85 12 ++ List.repeat 7 16 ++ List.repeat 85 28.
Proof. do 6 eexists. do 2 (split; [vm_compute; reflexivity|]). repeat split; reflexivity. Qed.
