(** What the statements about the OpenCL sample program need. *)
From Coq Require Import ZArith List Bool.
From Verif Require Import SpecBits SpecCalls CBase OptCompModel OclModel SpecOcl SpecInplace.
Import ListNotations.
Open Scope Z_scope.

(** [compressed_to x z]: optsw842_compress, given a buffer of twice the size, makes [z] of [x]. *)
Definition compressed_to (x z : list Z) : Prop :=
  forall e, observed (optsw842_compress e 0 0 x (repeat 0 (2 * length x)) (2 * lenZ x)) = Done (0, lenZ z, z).
(** A chunk that is too large when it is compressed does not start with the marker. *)
Definition not_mistaken (x : list Z) : Prop := forall z, compressed_to x z -> lenZ x - 24 < lenZ z -> firstn 16 x <> MARKER.
(** What is made of a chunk that is small enough can be decompressed in place. *)
Definition not_caught_up (x : list Z) : Prop := forall z, compressed_to x z -> lenZ z <= lenZ x - 24 -> stays_ahead (lenZ x - lenZ z) z.
