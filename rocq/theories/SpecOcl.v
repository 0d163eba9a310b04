(** What the statements about the OpenCL decompressor need: the layout of the
    buffers a caller must provide (cl.h:83-115), and what a chunk must
    decompress to. *)
From Coq Require Import ZArith List Bool Permutation.
From Verif Require Import SpecBits SpecCrc Spec842 CBase OclModel.
Import ListNotations.
Open Scope Z_scope.

(** [denotes_842 input x]: the bytes [input] start with a well-formed hardware stream
    denoting [x] and at least 32 more bits follow, whatever they are. *)
Definition denotes_842 (input x : list Z) : Prop :=
  exists rest, stream false [] (bytes_bits input) x rest /\ (32 <= length rest)%nat.

(** Element [c] of an array the caller passed. *)
Definition elem (l : option (list Z)) (c : Z) : Z := match l with Some l => nth (Z.to_nat c) l 0 | None => 0 end.
(** Where chunk [c] is in the input and the output buffer. *)
Definition in_pos (a : cl_args) (c : Z) : Z := a_inoff a + a_stride a * c.
Definition out_pos (a : cl_args) (c : Z) : Z := a_outoff a + a_size a * c.
Definition bytes_at (l : list Z) (p n : Z) : list Z := slice (Z.to_nat p) (Z.to_nat n) l.

(** The int at index [c] of an array of ints in memory. *)
Definition int_at (e : endian) (l : list Z) (c : Z) : Z :=
  let v := native_val e (bytes_at l (4 * c) 4) in if v <? 2 ^ 31 then v else v - 2 ^ 32.

(** The chunks are numbered from 0; a shuffle map is a permutation of the numbers. *)
Definition chunk_numbers (n : Z) : list Z := map Z.of_nat (seq 0 (Z.to_nat n)).
(** A schedule runs every work item of the index space once. *)
Definition schedule (a : cl_args) (order : list Z) : Prop := Permutation order (chunk_numbers (global_size (a_num a))).

(** Buffers and offsets as cl.h asks for: offsets and sizes in whole words, arrays
    with one element for each chunk, buffers that hold all chunks, and
    [slack] more bytes behind the last output chunk. *)
Record layout_ok (slack : Z) (a : cl_args) (m : cl_mem) : Prop := {
  ly_num : 0 <= a_num a <= 2 ^ 64 - 256;
  ly_size : 0 < a_size a < 2 ^ 63 /\ a_size a mod 8 = 0;
  ly_stride : 0 <= a_stride a /\ a_stride a mod 8 = 0;
  ly_inoff : 0 <= a_inoff a /\ a_inoff a mod 8 = 0;
  ly_outoff : 0 <= a_outoff a /\ a_outoff a mod 8 = 0;
  ly_in : is_bytes (a_in a);
  ly_out : is_bytes (m_out m) /\ a_outoff a + a_size a * a_num a + slack <= lenZ (m_out m);
  ly_olen : exists l, m_olen m = Some l /\ lenZ l = a_num a /\ Forall (fun n => 0 <= n <= a_size a) l;
  ly_ret : exists l, m_ret m = Some l /\ lenZ l = a_num a;
  ly_map : forall l, a_map a = Some l -> Permutation l (chunk_numbers (a_num a)) }.
(** ALWAYS_COMPRESSED_CHUNKS: the compressed sizes, in whole words, are given and the
    compressed chunks are inside the input buffer. *)
Definition sizes_ok (a : cl_args) : Prop :=
  a_format a = AlwaysCompressed /\
  exists l, a_ilen a = Some l /\ lenZ l = a_num a /\
    forall c, 0 <= c < a_num a -> 0 <= elem (a_ilen a) c /\ elem (a_ilen a) c mod 8 = 0 /\ in_pos a c + elem (a_ilen a) c <= lenZ (a_in a).

(** The input chunks for MAYBE_COMPRESSED_CHUNKS: [packed e size chunk z] is the chunk of
    [size] bytes with the header and the compressed data [z] at its end
    (cl.h:29-35, compdecomp_cl.cpp:65-72). *)
Definition packed (e : endian) (size : Z) (chunk z : list Z) : Prop :=
  exists pad, chunk = MARKER ++ native_bytes e 8 (lenZ z) ++ pad ++ z /\ lenZ chunk = size.

(** All input chunks are raw or packed, and inside the input buffer.  The array of
    compressed sizes is not used. *)
Definition chunks_ok (e : endian) (a : cl_args) : Prop :=
  a_format a = MaybeCompressed /\ 16 <= a_size a /\
  (forall l, a_ilen a = Some l -> lenZ l = a_num a) /\
  forall c, 0 <= c < a_num a -> in_pos a c + a_size a <= lenZ (a_in a) /\
    let chunk := bytes_at (a_in a) (in_pos a c) (a_size a) in
    firstn 16 chunk <> MARKER \/ exists z, packed e (a_size a) chunk z /\ lenZ z mod 8 = 0.
