(** C109: the chunked calls undo each other. *)
From Coq Require Import ZArith List Bool Lia.
From Verif Require Import SpecBits SpecCrc Spec842 SpecCalls CBase BitsLemmas ChunkedModel SpecChunked SpecChunkedTrip ChunkedProofs ChunkedTrip PropChunked
  ImplModel SpecImpl ImplProofs PropImpl.
Import ListNotations.
Open Scope Z_scope.

Lemma from_trip fc fd gc gd (ok : list Z -> Prop) : as_single_calls (2 ^ 32) fc gc -> as_single_calls (2 ^ 32) fd gd ->
  (forall ia oa x out, is_bytes x -> ok x -> is_bytes out -> room_for (lenZ x) <= lenZ out -> room_for (lenZ x) <= UINT_MAX -> lenZ out < 2 ^ 63 ->
    exists z, is_bytes z /\ lenZ z <= lenZ out /\ observed (fc ia oa x out (lenZ out)) = Done (0, lenZ z, z) /\
    forall ia' oa' out2, is_bytes out2 -> lenZ x <= lenZ out2 < 2 ^ 63 -> observed (fd ia' oa' z out2 (lenZ out2)) = Done (0, lenZ x, x)) ->
  round_trip ok gc gd.
Proof.
  intros SC SD RT n rets iaddr inp istride ilens oaddr out ostride olens Hi Ho Hn AR WI WO CH.
  destruct (trip fc fd gc gd ok SC SD RT n rets iaddr inp istride ilens oaddr out ostride olens Hi Ho Hn AR WI WO) as (ret & rets' & olens' & out' & E & Z0 & BK).
  { intros j Hj. destruct (CH j Hj) as (NS & OK & R & RU). do 3 (split; [assumption|]). exact OK. }
  exists ret, rets', olens', out'. split; [exact E|]. split; [exact Z0|].
  intros iaddr' oaddr' rets2 back bstride blens Bb LR LB BS WB BJ.
  destruct (BK iaddr' oaddr' rets2 back bstride blens Bb LR LB BS WB BJ) as (ret2 & rets2' & blens' & back' & E2 & D).
  exists ret2, rets2', blens', back'. split; [exact E2|]. intros j Hj. specialize (D j Hj). unfold seen in D. injection D as D1 D2 D3.
  split; [exact D1|]. split; [exact D2|]. unfold chunk_of. rewrite D2 in D3. exact D3.
Qed.

(** sw842: chunks of any lengths, compressed on one host and decompressed on another. *)
Theorem C109_sw842_chunked_round_trip : forall e e', round_trip (fun _ => True) (sw842_compress_chunked e) (sw842_decompress_chunked e').
Proof.
  intros e e'. apply (from_trip (sw842_compress_f e) (sw842_decompress_f e')).
  - apply (c28 e). left. reflexivity.
  - apply (c28 e'). right. left. reflexivity.
  - intros. apply (sw_trip e e'); assumption.
Qed.
Print Assumptions C109_sw842_chunked_round_trip.

(** Non-empty whole blocks: any of the two compressors with any of the two decompressors, wherever the buffers lie. *)
Theorem C109_mixed_chunked_round_trip : forall e e' gc gd,
  In gc [sw842_compress_chunked e; optsw842_compress_chunked e] -> In gd [sw842_decompress_chunked e'; optsw842_decompress_chunked e'] ->
  round_trip (fun x => x <> [] /\ lenZ x mod 8 = 0) gc gd.
Proof.
  intros e e' gc gd IC ID.
  assert (C : exists fc, In fc (compressors e) /\ as_single_calls (2 ^ 32) fc gc).
  { destruct IC as [<- | [<- | []]].
    - exists (sw842_compress_f e). split; [left; reflexivity|]. apply (c28 e). left. reflexivity.
    - exists (optsw842_compress_f e). split; [right; left; reflexivity|]. apply (c28 e). right. right. left. reflexivity. }
  assert (D : exists fd, In fd (decompressors e') /\ as_single_calls (2 ^ 32) fd gd).
  { destruct ID as [<- | [<- | []]].
    - exists (sw842_decompress_f e'). split; [left; reflexivity|]. apply (c28 e'). right. left. reflexivity.
    - exists (optsw842_decompress_f e'). split; [right; left; reflexivity|]. apply (c28 e'). right. right. right. left. reflexivity. }
  destruct C as (fc & Ic & Sc). destruct D as (fd & Id & Sd). apply (from_trip fc fd); auto. exact (mixed_trip e e' fc fd Ic Id).
Qed.
Print Assumptions C109_mixed_chunked_round_trip.

(** AIX: whatever the functions of the operating system are, if they restore the data of single calls the chunked calls restore all chunks. *)
Theorem C109_aix_chunked_round_trip : forall ok accel_compress accel_decompress,
  well_behaved accel_compress -> well_behaved accel_decompress -> codec ok accel_compress accel_decompress ->
  round_trip ok (aix842_chunked accel_compress) (aix842_chunked accel_decompress).
Proof.
  intros ok fc fd WC WD RT. apply (from_trip fc fd); [now apply aix_spec|now apply aix_spec|].
  intros ia oa x out Bx OK Bo R RU H63. apply RT; auto.
Qed.
Print Assumptions C109_aix_chunked_round_trip.
(** Functions that meet the hypotheses: the software ones. *)
Example C109_aix_hypotheses : forall e e',
  codec (fun _ => True) (sw842_compress_f e) (sw842_decompress_f e') /\
  codec (fun x => x <> [] /\ lenZ x mod 8 = 0) (optsw842_compress_f e) (optsw842_decompress_f e') /\
  well_behaved (sw842_compress_f e) /\ well_behaved (sw842_decompress_f e') /\ well_behaved (optsw842_compress_f e) /\ well_behaved (optsw842_decompress_f e').
Proof.
  intros e e'. split; [|split].
  - intros ia oa x out Bx OK Bo [R RU] H63. exact (sw_trip e e' ia oa x out Bx OK Bo R RU H63).
  - intros ia oa x out Bx OK Bo [R RU] H63.
    exact (mixed_trip e e' (optsw842_compress_f e) (optsw842_decompress_f e') (or_intror (or_introl eq_refl)) (or_intror (or_introl eq_refl)) ia oa x out Bx OK Bo R RU H63).
  - split; [eapply (C82_hypothesis e); left; reflexivity|]. split; [eapply (C82_hypothesis e'); right; left; reflexivity|].
    split; [eapply (C82_hypothesis e); right; right; left; reflexivity|eapply (C82_hypothesis e'); right; right; right; left; reflexivity].
Qed.

(** Two chunks, of 8 and 16 bytes, compressed by one and decompressed by the other. *)
Definition trip_in : list Z := [1;2;3;4;5;6;7;8] ++ List.repeat 9 8 ++ List.repeat 7 16.
Example C109_hypotheses : areas 2 [9;9] trip_in 16 [8;16] (List.repeat 170 100) 40 [40;40] /\
  words64 (69 * (16 / 8) + 37) <= 40 /\ chunk_of trip_in 16 [8;16] 0 = [1;2;3;4;5;6;7;8] /\ chunk_of trip_in 16 [8;16] 1 = List.repeat 7 16.
Proof.
  split; [|do 2 (split; [vm_compute; congruence|]); vm_compute; congruence].
  unfold areas. do 5 (split; [vm_compute; congruence|]). intros [|[|j]] [H _]; [vm_compute; intuition congruence|vm_compute; intuition congruence|].
  change (Z.to_nat 2) with 2%nat in H. lia.
Qed.
Example C109_case : exists rets olens out rets2 lens2 back,
  optsw842_compress_chunked LE 2 [9;9] 0 trip_in 16 [8;16] 0 (List.repeat 170 100) 40 [40;40] = Done (0, rets, olens, out) /\
  sw842_decompress_chunked BE 2 [9;9] 0 out 40 olens 0 (List.repeat 85 64) 20 [8;20] = Done (0, rets2, lens2, back) /\
  olens = [16;16] /\ rets2 = [0;0] /\ lens2 = [8;16] /\ back = [1;2;3;4;5;6;7;8] ++ List.repeat 85 12 ++ List.repeat 7 16 ++ List.repeat 85 28.
Proof. do 6 eexists. do 2 (split; [vm_compute; reflexivity|]). repeat split; reflexivity. Qed.
