(** C45: every implementation gives the 26 templates (and the other operations of
    the format) the same meaning. *)
From Coq Require Import ZArith List Bool Lia.
From Verif Require Import SpecBits SpecCrc Spec842 SpecCalls CBase SerialDecompModel OptDecompModel OclModel CudaModel
  PropOpt PropOcl PropCuda AgreeProps.
Import ListNotations.
Open Scope Z_scope.

(** Whatever hardware stream [z] is given: if it denotes [x], then sw842_decompress,
    optsw842_decompress, the code of an OpenCL work item and the code of a CUDA thread
    all write [x], whatever the buffers held before, on every host. *)
Theorem C45_all_decompressors_agree : forall z x,
  is_bytes z -> lenZ z mod 8 = 0 -> valid_842 false z x -> lenZ x <= UINT_MAX ->
  forall e iaddr oaddr out olen, is_bytes out -> lenZ x <= olen <= lenZ out -> lenZ out < 2 ^ 63 ->
    iaddr mod 8 = 0 -> oaddr mod 8 = 0 ->
    observed (sw842_decompress e oaddr z out olen) = Done (0, lenZ x, x) /\
    observed (optsw842_decompress e iaddr oaddr z out olen) = Done (0, lenZ x, x) /\
    observed (decompress_core e z (lenZ z) out olen) = Done (0, lenZ x, x) /\
    cuda_chunk z out = Done (x ++ skipn (length x) out).
Proof. exact decompressors_agree. Qed.
Print Assumptions C45_all_decompressors_agree.
(** A stream in which all 26 templates, repeat and zeros occur. *)
Example C45_case : is_bytes all_ops_z /\ lenZ all_ops_z mod 8 = 0 /\
  observed (sw842_decompress LE 0 all_ops_z (List.repeat 0 400) 400) = Done (0, lenZ all_ops_x, all_ops_x) /\
  observed (optsw842_decompress BE 0 0 all_ops_z (List.repeat 0 400) 400) = Done (0, lenZ all_ops_x, all_ops_x) /\
  observed (decompress_core LE all_ops_z (lenZ all_ops_z) (List.repeat 0 400) 400) = Done (0, lenZ all_ops_x, all_ops_x) /\
  cuda_chunk all_ops_z (List.repeat 0 400) = Done (all_ops_x ++ List.repeat 0 (400 - length all_ops_x)).
Proof. split; [isb|]. repeat split; vm_compute; reflexivity. Qed.
