(** What a chunk holds for an OpenCL kernel built with or without the CRC. *)
From Coq Require Import ZArith List Bool.
From Verif Require Import SpecBits Spec842.
Import ListNotations.
Open Scope Z_scope.

(** [kernel_842 crc input x]: the bytes [input] start with a well-formed hardware stream denoting [x] and, if [crc], at least 32 more
    bits follow, whatever they are. *)
Definition kernel_842 (crc : bool) (input x : list Z) : Prop :=
  exists rest, stream false [] (bytes_bits input) x rest /\ (crc = true -> (32 <= length rest)%nat).
