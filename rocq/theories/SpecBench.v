(** Specification of the sample program for the CPU. *)
From Coq Require Import ZArith List Bool.
From Verif Require Import SpecBits SpecCalls CBase SpecOcl BenchModel.
Import ListNotations.
Open Scope Z_scope.

(** The number of bytes a chunk [x] needs: what the single call to the compressor, with as much room as the
    chunk has bytes, reports; the chunk itself if it fails. *)
Definition stored_size (I : implementation) (x : list Z) : Z :=
  match observed (i_compress I 0 0 x (repeat 0 (length x)) (lenZ x)) with
  | Done (ret, n, _) => if ret =? 0 then n else lenZ x
  | _ => lenZ x
  end.
Definition sum (l : list Z) : Z := fold_right Z.add 0 l.
(** The file in chunks of [C] bytes. *)
Definition chunks_of (C : Z) (inp : list Z) : list (list Z) := map (fun c => bytes_at inp (C * c) C) (chunk_numbers (lenZ inp / C)).
(** The numbers of the batches of [B] chunks. *)
Definition batches (B num : Z) : list Z := chunk_numbers ((num + B - 1) / B).
(** A file followed by zeros up to the next multiple of [C]. *)
Definition padded (C : Z) (f : list Z) : list Z := f ++ repeat 0 (Z.to_nat (- lenZ f mod C)).
