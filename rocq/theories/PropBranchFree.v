(** The build with BRANCH_FREE defined as 1: C66, C67.

    [optsw842_compress_bf over e ...] and [optsw842_decompress_bf over e ...] are the
    calls of PropOpt.v in that build.  [over x] is the result of shifting the 64-bit
    value [x] by 64, which that build does and C++ leaves undefined:
    [fun _ => Undef] is the C++ standard, [fun x => Done x] an x86 processor,
    [fun _ => Done 0] a processor that shifts every bit out. *)
From Coq Require Import ZArith List Bool Lia.
From Verif Require Import SpecBits Spec842 SpecCalls CBase SerialCompModel SerialDecompModel OptCompModel OptDecompModel
  BranchFreeModel BranchFreeProofs BranchFreeComp PropOpt.
Import ListNotations.
Open Scope Z_scope.

(** C66: on every processor on which such a shift has some result, the decompressor of the
    branch-free build returns the same code, size and bytes as the default one, for
    every input, valid or not, ... *)
Theorem C66_branch_free_decompress_same : forall over e iaddr oaddr inp out olen,
  (forall x, exists y, over x = Done y) ->
  is_bytes inp -> is_bytes out -> 0 <= olen <= lenZ out -> olen < 2 ^ 63 ->
  observed (optsw842_decompress_bf over e iaddr oaddr inp out olen) =
  observed (optsw842_decompress e iaddr oaddr inp out olen).
Proof. exact bf_same. Qed.
Print Assumptions C66_branch_free_decompress_same.
Example C66_decompress_case : forall over, In over [(fun x => Done x); (fun _ => Done 0); (fun x => Done (x + 5))] ->
  observed (optsw842_decompress_bf over LE 0 8 osample_z (obuf 64) 64) = Done (0, 40, osample) /\
  observed (optsw842_decompress_bf over BE 0 8 (firstn 20 osample_z) (obuf 64) 64) = Done (- EINVAL, 0, []) /\
  observed (optsw842_decompress_bf over LE 0 8 osample_z (obuf 64) 39) = Done (- ENOSPC, 0, []).
Proof. intros over [<-|[<-|[<-|[]]]]; repeat split; vm_compute; reflexivity. Qed.

(** ... and like the default one it writes only a prefix of the output buffer. *)
Theorem C66_branch_free_decompress_in_bounds : forall over e iaddr oaddr inp out olen,
  (forall x, exists y, over x = Done y) ->
  is_bytes inp -> is_bytes out -> 0 <= olen <= lenZ out -> olen < 2 ^ 63 -> iaddr mod 8 = 0 -> oaddr mod 8 = 0 ->
  exists ret n m, optsw842_decompress_bf over e iaddr oaddr inp out olen = Done (ret, n, m) /\
    exists w, is_bytes w /\ lenZ w <= olen /\ m = w ++ skipn (length w) out.
Proof. exact bf_kept. Qed.
Print Assumptions C66_branch_free_decompress_in_bounds.
Example C66_in_bounds_case : exists m, optsw842_decompress_bf (fun x => Done x) LE 0 8 osample_z (obuf 64) 39 = Done (- ENOSPC, 0, m) /\
  m = firstn 32 osample ++ obuf 32.
Proof. eexists. split; vm_compute; reflexivity. Qed.

(** The compressor needs only that 0 shifted by 64 stays 0. *)
Theorem C66_branch_free_compress_same : forall over e iaddr oaddr inp out olen,
  over 0 = Done 0 -> is_bytes inp -> is_bytes out -> 0 <= olen <= lenZ out ->
  observed (optsw842_compress_bf over e iaddr oaddr inp out olen) =
  observed (optsw842_compress e iaddr oaddr inp out olen).
Proof. intros over e iaddr oaddr inp out olen H. exact (bf_compress_same over H e iaddr oaddr inp out olen). Qed.
Print Assumptions C66_branch_free_compress_same.
Example C66_compress_case : forall over, In over [(fun x => Done x); (fun _ => Done 0)] ->
  observed (optsw842_compress_bf over LE 0 8 osample (obuf 64) 64) = Done (0, 24, osample_z) /\
  observed (optsw842_compress_bf over BE 0 8 osample (obuf 64) 23) = Done (- ENOSPC, 0, []).
Proof. intros over [<-|[<-|[]]]; repeat split; vm_compute; reflexivity. Qed.

Definition bsample : list Z := [1;2;3;4;5;6;7;8; 5;6;7;8;9;9;9;9; 9;9;9;9;1;2;3;4].
Definition bsample_z : list Z := [0;8;16;24;32;40;48;56;69;0;33;33;33;33;56;1;128;60;185;64;91;156;0;0].
(** C67: but by the C++ standard the branch-free build is undefined on ordinary data: a valid
    stream that the default build decodes, and an input that the default build compresses. *)
Theorem C67_branch_free_defined_refuted : exists x z out, is_bytes x /\ is_bytes z /\ is_bytes out /\ lenZ out = 64 /\
  forall e,
  observed (optsw842_decompress e 0 0 z out 64) = Done (0, lenZ x, x) /\
  optsw842_decompress_bf (fun _ => Undef) e 0 0 z out 64 = Undef /\
  observed (optsw842_compress e 0 0 x out 64) = Done (0, lenZ z, z) /\
  optsw842_compress_bf (fun _ => Undef) e 0 0 x out 64 = Undef.
Proof.
  exists bsample, bsample_z, (obuf 64). split; [unfold bsample; isb|]. split; [unfold bsample_z; isb|].
  split; [cbn [obuf List.repeat]; isb|]. split; [reflexivity|].
  intros []; repeat split; vm_compute; reflexivity.
Qed.
Print Assumptions C67_branch_free_defined_refuted.
