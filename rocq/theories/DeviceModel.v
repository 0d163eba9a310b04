(** Model of CLDeviceDecompressor::decompress (cl842decompress.cpp:43-80) and of a call written after
    its declaration (cl.h:116-127), with device buffers of bytes for the return values and the shuffle map. *)
From Coq Require Import ZArith List Bool.
From Verif Require Import SpecBits CBase OclModel.
Import ListNotations.
Open Scope Z_scope.

(** A buffer seen as an array of integers of [k] bytes, as the kernel does with its arguments
    (decompress.cl:394-395), and back; [rest] are the bytes that do not fill an element. *)
Definition array (e : endian) (k : nat) (bs : list Z) : list Z :=
  map (fun i => native_val e (slice (k * i) k bs)) (seq 0 (length bs / k)).
(** The buffer after the kernel changed the array (decompress.cl:394-395). *)
Definition unarray (e : endian) (k : nat) (l rest : list Z) : list Z :=
  flat_map (fun v => native_bytes e k (v mod 2 ^ (8 * Z.of_nat k))) l ++ rest.

(** The arguments of the kernel with another shuffle map (decompress.cl:394). *)
Definition with_map (a : cl_args) (m : option (list Z)) : cl_args :=
  mkA (a_format a) (a_size a) (a_stride a) (a_in a) (a_inoff a) (a_ilen a) (a_outoff a) (a_num a) m.

(** cl842decompress.cpp:43-80: the definition.  Its parameters are, in this order, ..., outputChunkSizes, chunkShuffleMap,
    returnValues; they become kernel arguments 5, 7 and 8.  The result is the
    content of outputBuffer, outputChunkSizes and of returnValues; the kernel does not write to chunkShuffleMap.
    Simplification: the arrays of sizes are given as numbers. *)
Definition device_decompress (e : endian) (a : cl_args) (order : list Z) (out : list Z) (olen chunkShuffleMap returnValues : option (list Z))
  : outcome (list Z * option (list Z) * option (list Z)) :=
  m <- run_items e (with_map a (option_map (array e 8) chunkShuffleMap)) order (mkM out olen (option_map (array e 4) returnValues)) ;;
  Done (m_out m, m_olen m,
    match returnValues, m_ret m with
    | Some bs, Some l => Some (unarray e 4 l (skipn (4 * (length bs / 4)) bs))
    | _, _ => None
    end).

(** cl.h:116-127: a caller sees the parameters ..., outputChunkSizes, returnValues, chunkShuffleMap.  Both have type const cl::Buffer &, the
    call is compiled and linked to the definition above.  The result is the content of outputBuffer, outputChunkSizes,
    returnValues and chunkShuffleMap, as the caller names them. *)
Definition declared_decompress (e : endian) (a : cl_args) (order : list Z) (out : list Z) (olen returnValues chunkShuffleMap : option (list Z))
  : outcome (list Z * option (list Z) * option (list Z) * option (list Z)) :=
  '(out, olen, last) <- device_decompress e a order out olen returnValues chunkShuffleMap ;;
  Done (out, olen, returnValues, last).
