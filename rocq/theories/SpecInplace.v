(** What the statements about in-place decompression need. *)
From Coq Require Import ZArith List Bool.
From Verif Require Import SpecBits Spec842 CBase OclModel SpecOcl.
Import ListNotations.
Open Scope Z_scope.

(** [decoded_so_far pre x]: [pre] is a sequence of complete templates, without an end
    template, and [x] is what they produce: with an end template it is a stream denoting [x]. *)
Definition decoded_so_far (pre : list bool) (x : list Z) : Prop := stream false [] (pre ++ bits_of 5 0x1e) x [].

(** The compressed data [z] is in the same memory as the output, [ioff] bytes after its
    start.  It is read in words of 8 bytes and six more words are held in
    registers.  [stays_ahead ioff z]: after every sequence of templates at the start of [z], the
    output produced so far ends before the first byte that has not been read. *)
Definition stays_ahead (ioff : Z) (z : list Z) : Prop :=
  forall pre post x, bytes_bits z = pre ++ post -> decoded_so_far pre x ->
    lenZ x <= ioff + 8 * ((lenZ pre + 63) / 64) + 48.

(** [ends_with_crc z x]: [z] is a well-formed hardware stream denoting [x] and ends with the word
    of 8 bytes that has the last bit of the CRC, as the compressors write it. *)
Definition ends_with_crc (z x : list Z) : Prop :=
  exists rest, stream false [] (bytes_bits z) x rest /\ (32 <= length rest < 96)%nat.

(** The input is the output buffer (cl842decompress.cpp:56-59), the chunks are as for
    MAYBE_COMPRESSED_CHUNKS and one directly follows the other (cl.h:36-51). *)
Definition inplace_ok (e : endian) (a : cl_args) (m : cl_mem) : Prop :=
  layout_ok 2 a m /\ chunks_ok e a /\ a_in a = m_out m /\ a_inoff a = a_outoff a /\ a_stride a = a_size a.

(** What decompression must make of a chunk: return value [r], size [n], content
    [after].  [cap] is the room the caller announced. *)
Definition chunk_becomes (e : endian) (size cap : Z) (chunk : list Z) (r n : Z) (after : list Z) : Prop :=
  (r = 0 \/ ((r = - EINVAL \/ r = - ENOSPC) /\ n = 0)) /\ 0 <= n <= size /\
  (firstn 16 chunk <> MARKER -> r = 0 /\ n = size /\ after = chunk) /\
  (forall z, packed e size chunk z -> lenZ z mod 8 = 0 -> 0 < lenZ z -> stays_ahead (size - lenZ z) z ->
    forall x, (r = 0 /\ n = lenZ x /\ firstn (Z.to_nat (lenZ x)) after = x) <-> (denotes_842 z x /\ lenZ x <= cap)).
