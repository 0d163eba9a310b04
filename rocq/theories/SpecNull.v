(** The optional arrays of the OpenCL decompressor (cl.h:91-99): the compressed sizes, the
    maximal sizes and the return values "can be null". *)
From Coq Require Import ZArith List Bool.
From Verif Require Import SpecBits SpecCrc Spec842 CBase OclModel SpecOcl.
Import ListNotations.
Open Scope Z_scope.

(** An array that is passed or left out. *)
Definition optional (o o' : option (list Z)) : Prop := o' = o \/ o' = None.
(** The same call without some of the arrays. *)
Definition without_sizes (a : cl_args) (il : option (list Z)) : cl_args :=
  mkA (a_format a) (a_size a) (a_stride a) (a_in a) (a_inoff a) il (a_outoff a) (a_num a) (a_map a).
Definition leaves_out (a a' : cl_args) (m m' : cl_mem) : Prop :=
  (exists il, optional (a_ilen a) il /\ a' = without_sizes a il) /\
  m_out m' = m_out m /\ optional (m_olen m) (m_olen m') /\ optional (m_ret m) (m_ret m').
(** What the two calls leave is the same, as far as it is asked for. *)
Definition same_effect (m' m1 m1' : cl_mem) : Prop :=
  m_out m1' = m_out m1 /\
  m_olen m1' = (match m_olen m' with Some _ => m_olen m1 | None => None end) /\
  m_ret m1' = (match m_ret m' with Some _ => m_ret m1 | None => None end).
(** Behind each compressed chunk there are [n] more bytes in the input buffer. *)
Definition bytes_behind (n : Z) (a : cl_args) : Prop :=
  forall c, 0 <= c < a_num a -> in_pos a c + elem (a_ilen a) c + n <= lenZ (a_in a).
(** Every chunk was decompressed. *)
Definition all_succeed (a : cl_args) (m1 : cl_mem) : Prop := forall c, 0 <= c < a_num a -> elem (m_ret m1) c = 0.

(** ** Chunks that are well-formed *)
(** Arrays with one element for each chunk, if they are given; buffers that hold all chunks. *)
Record nlayout_ok (a : cl_args) (m : cl_mem) : Prop := {
  nl_num : 0 <= a_num a <= 2 ^ 64 - 256;
  nl_size : 0 < a_size a < 2 ^ 63 /\ a_size a mod 8 = 0;
  nl_stride : 0 <= a_stride a /\ a_stride a mod 8 = 0;
  nl_inoff : 0 <= a_inoff a /\ a_inoff a mod 8 = 0;
  nl_outoff : 0 <= a_outoff a /\ a_outoff a mod 8 = 0;
  nl_in : is_bytes (a_in a) /\ lenZ (a_in a) < 2 ^ 64;
  nl_out : is_bytes (m_out m) /\ a_outoff a + a_size a * a_num a <= lenZ (m_out m);
  nl_ilen : forall l, a_ilen a = Some l -> lenZ l = a_num a;
  nl_olen : forall l, m_olen m = Some l -> lenZ l = a_num a /\ Forall (fun n => 0 <= n <= a_size a) l;
  nl_ret : forall l, m_ret m = Some l -> lenZ l = a_num a;
  nl_map : forall l, a_map a = Some l -> Permutation.Permutation l (chunk_numbers (a_num a)) }.
(** How much chunk [c] may decompress to. *)
Definition room (a : cl_args) (m : cl_mem) (c : Z) : Z :=
  match m_olen m with Some _ => elem (m_olen m) c | None => a_size a end.
(** Chunk [c] of the input holds [x]: as a compressed stream of whole words; if the sizes are not
    given, 48 more bytes can be read behind it; or, in the mixed format, as it is or with the header. *)
Definition chunk_holds (e : endian) (a : cl_args) (m : cl_mem) (c : Z) (x : list Z) : Prop :=
  match a_format a with
  | AlwaysCompressed => exists n, 0 <= n /\ n mod 8 = 0 /\ denotes_842 (bytes_at (a_in a) (in_pos a c) n) x /\ lenZ x <= room a m c /\
    match a_ilen a with
    | Some _ => n = elem (a_ilen a) c /\ in_pos a c + n <= lenZ (a_in a)
    | None => in_pos a c + n + 48 <= lenZ (a_in a)
    end
  | MaybeCompressed => 16 <= a_size a /\ in_pos a c + a_size a <= lenZ (a_in a) /\
    let chunk := bytes_at (a_in a) (in_pos a c) (a_size a) in
    (firstn 16 chunk <> MARKER /\ x = chunk) \/
    exists z, packed e (a_size a) chunk z /\ lenZ z mod 8 = 0 /\ denotes_842 z x /\ lenZ x <= room a m c
  end.
(** What [m'] has for chunk [c], as far as it is asked for. *)
Definition restored (a : cl_args) (m m' : cl_mem) (c : Z) (x : list Z) : Prop :=
  bytes_at (m_out m') (out_pos a c) (lenZ x) = x /\
  match m_olen m with Some _ => (exists l, m_olen m' = Some l /\ lenZ l = a_num a) /\ elem (m_olen m') c = lenZ x | None => m_olen m' = None end /\
  match m_ret m with Some _ => (exists l, m_ret m' = Some l /\ lenZ l = a_num a) /\ elem (m_ret m') c = 0 | None => m_ret m' = None end.
(** Byte [p] of the output buffer does not belong to the restored data of a chunk. *)
Definition outside (a : cl_args) (x : Z -> list Z) (p : nat) : Prop :=
  forall c, 0 <= c < a_num a -> ~ (out_pos a c <= Z.of_nat p < out_pos a c + lenZ (x c)).
