(** What a buffer holds when the CRC is left out. *)
From Coq Require Import ZArith List Bool.
From Verif Require Import SpecBits SpecCrc Spec842.
Import ListNotations.
Open Scope Z_scope.

(** [holds_842 crc input x]: the bytes [input] start with a well-formed stream denoting [x], without the short data template;
    after the end template comes the CRC of [x] if [crc], otherwise anything. *)
Definition holds_842 (crc : bool) (input x : list Z) : Prop :=
  exists rest, stream false [] (bytes_bits input) x (if crc then bits_of 32 (crc32 x) ++ rest else rest).
