(** The test suite of the repository (/repo/test), run on the models.  These are tests of the models, not
    theorems about them: they show that the models do what the real functions are expected to do
    in the repository's own tests.  The results are computed when the file is compiled ([Eval vm_compute]) and then
    compared with what is expected. *)
From Coq Require Import ZArith List Bool.
From Verif Require Import CBase SpecCalls SerialCompModel SerialDecompModel OptCompModel OptDecompModel OclModel CudaModel TestPatterns.
Import ListNotations.
Open Scope Z_scope.

Fixpoint list_eqb (a b : list Z) : bool :=
  match a, b with [], [] => true | x :: a, y :: b => (x =? y) && list_eqb a b | _, _ => false end.
Definition result := outcome (Z * Z * list Z).
Definition returns (r : result) (ret : Z) : bool := match r with Done (x, _, _) => x =? ret | _ => false end.
(** success with exactly the bytes [x] *)
Definition delivers (r : result) (x : list Z) : bool :=
  match r with Done (0, n, m) => (n =? lenZ x) && list_eqb (firstn (length x) m) x | _ => false end.
Definition zeros (n : Z) : list Z := List.repeat 0 (Z.to_nat n).

(** Implementations by name, with the address of both buffers (aligned: 0, unaligned: 3). *)
Definition compressor := Z -> list Z -> list Z -> Z -> result.
Definition sw_c (e : endian) : compressor := fun a inp out olen => sw842_compress e a inp out olen.
Definition opt_c (e : endian) : compressor := fun a inp out olen => optsw842_compress e a a inp out olen.
Definition decompressor := compressor.
Definition sw_d (e : endian) : decompressor := fun a inp out olen => sw842_decompress e a inp out olen.
Definition opt_d (e : endian) : decompressor := fun a inp out olen => optsw842_decompress e a a inp out olen.
Definition cl_d (e : endian) : decompressor := fun a inp out olen => decompress_core e inp (lenZ inp) out olen.
Definition both {A} (f : endian -> A) : list A := [f LE; f BE].
Definition compressors := both sw_c ++ both opt_c.
Definition decompressors := both sw_d ++ both opt_d ++ both cl_d.

(** The patterns.  The empty one is separate: with aligned buffers optsw842_compress reads 8 bytes of its
    empty input (C18). *)
Definition patterns : list (list Z * list Z) :=
  [(PATTERN_ZEROS_UNCOMPRESSED, PATTERN_ZEROS_COMPRESSED); (PATTERN_RANDOM_UNCOMPRESSED, PATTERN_RANDOM_COMPRESSED);
   (PATTERN_LIMIT_UNCOMPRESSED, PATTERN_LIMIT_COMPRESSED); (PATTERN_MIXED_UNCOMPRESSED, PATTERN_MIXED_COMPRESSED);
   (PATTERN_TEXT_UNCOMPRESSED, PATTERN_TEXT_COMPRESSED)].

(** test_decompress_pattern.c, test_decompress_pattern_unaligned.c *)
Definition t_decompress (a : Z) (d : decompressor) (p : list Z * list Z) : bool :=
  delivers (d a (snd p) (zeros (lenZ (fst p) + 5)) (lenZ (fst p) + 5)) (fst p).
Definition decompress_pattern_result : bool := Eval vm_compute in
  forallb (fun d => forallb (t_decompress 0 d) ((PATTERN_EMPTY_UNCOMPRESSED, PATTERN_EMPTY_COMPRESSED) :: patterns)) decompressors.
Example decompress_pattern : decompress_pattern_result = true.
Proof. reflexivity. Qed.
Definition decompress_pattern_unaligned_result : bool := Eval vm_compute in
  forallb (fun d => forallb (t_decompress 3 d) ((PATTERN_EMPTY_UNCOMPRESSED, PATTERN_EMPTY_COMPRESSED) :: patterns)) (both sw_d ++ both opt_d).
Example decompress_pattern_unaligned : decompress_pattern_unaligned_result = true.
Proof. reflexivity. Qed.
(** the same with the CUDA kernel, which reports neither errors nor lengths *)
Definition decompress_pattern_cuda_result : bool := Eval vm_compute in
  forallb (fun p => match cuda_chunk (snd p) (zeros (lenZ (fst p))) with Done m => list_eqb m (fst p) | _ => false end) patterns.
Example decompress_pattern_cuda : decompress_pattern_cuda_result = true.
Proof. reflexivity. Qed.

(** test_decompress_pattern_barelysmall.c, test_decompress_pattern_halfsmall.c *)
Definition t_small (f : Z -> Z) (d : decompressor) (p : list Z * list Z) : bool :=
  returns (d 0 (snd p) (zeros (f (lenZ (fst p)))) (f (lenZ (fst p)))) (- ENOSPC).
Definition decompress_barelysmall_result : bool := Eval vm_compute in
  forallb (fun d => forallb (t_small (fun n => n - 1) d) patterns) decompressors.
Example decompress_barelysmall : decompress_barelysmall_result = true.
Proof. reflexivity. Qed.
Definition decompress_halfsmall_result : bool := Eval vm_compute in
  forallb (fun d => forallb (t_small (fun n => n / 2) d) patterns) decompressors.
Example decompress_halfsmall : decompress_halfsmall_result = true.
Proof. reflexivity. Qed.

(** test_compress_pattern.c (all pairs), test_compress_pattern_unaligned.c *)
Definition compressed (r : result) : list Z := match r with Done (0, n, m) => firstn (Z.to_nat n) m | _ => [] end.
Definition t_compress (a : Z) (c : compressor) (d : decompressor) (p : list Z * list Z) : bool :=
  let cap := lenZ (fst p) * 2 + 8 in
  delivers (d a (compressed (c a (fst p) (zeros cap) cap)) (zeros (lenZ (fst p) + 5)) (lenZ (fst p) + 5)) (fst p).
Definition compress_pattern_result : bool := Eval vm_compute in
  forallb (fun c => forallb (fun d => forallb (t_compress 0 c d) patterns) [sw_d LE; opt_d BE; cl_d LE]) [sw_c BE; opt_c LE].
Example compress_pattern : compress_pattern_result = true.
Proof. reflexivity. Qed.
Definition compress_pattern_unaligned_result : bool := Eval vm_compute in
  forallb (fun c => forallb (fun d => forallb (t_compress 3 c d) patterns) [sw_d LE; opt_d BE]) [sw_c BE; opt_c LE].
Example compress_pattern_unaligned : compress_pattern_unaligned_result = true.
Proof. reflexivity. Qed.
(** more than the test asks for: sw842_compress reproduces the compressed patterns *)
Definition compress_pattern_exact_result : bool := Eval vm_compute in
  forallb (fun c => forallb (fun p => list_eqb (compressed (c 0 (fst p) (zeros 3000) 3000)) (snd p)) ((PATTERN_EMPTY_UNCOMPRESSED, PATTERN_EMPTY_COMPRESSED) :: patterns)) (both sw_c).
Example compress_pattern_exact : compress_pattern_exact_result = true.
Proof. reflexivity. Qed.

(** test_compress_pattern_barelysmall.c (test_compress_pattern_halfsmall.c is the same program) *)
Definition t_csmall (c : compressor) (p : list Z * list Z) : bool :=
  let cap := lenZ (fst p) * 2 + 8 in
  let n := lenZ (compressed (c 0 (fst p) (zeros cap) cap)) - 1 in
  returns (c 0 (fst p) (zeros cap) n) (- ENOSPC).
Definition compress_barelysmall_result : bool := Eval vm_compute in
  forallb (fun c => forallb (t_csmall c) patterns) compressors.
Example compress_barelysmall : compress_barelysmall_result = true.
Proof. reflexivity. Qed.

(** test_compress_notmultipleof8.c *)
Definition compress_notmultipleof8_result : bool := Eval vm_compute in
  forallb (fun c => let r := c 0 [0x11; 0x11; 0x11; 0x12; 0x12] (zeros 128) 128 in returns r 0 || returns r (- EINVAL)) compressors.
Example compress_notmultipleof8 : compress_notmultipleof8_result = true.
Proof. reflexivity. Qed.

(** test_compress_diffuse.c: xorshift_next (lines 14-20, 32-bit), the diffusion (44-49) and the loop (39-78), with a buffer of 256 bytes
    instead of 2048. *)
Definition xorshift (s : Z) : Z :=
  let s := Z.lxor s (Z.shiftl s 13 mod 2 ^ 32) in
  let s := Z.lxor s (Z.shiftr s 17) in
  Z.lxor s (Z.shiftl s 5 mod 2 ^ 32).
Fixpoint xbytes (n : nat) (s : Z) : list Z * Z :=
  match n with O => ([], s) | S n => let s := xorshift s in let '(l, s') := xbytes n s in (s mod 256 :: l, s') end.
Definition diffuse (l : list Z) : list Z :=
  map (fun p => (fst p + snd p) / 3 mod 256) (combine (last l 0 :: removelast l) (tl l ++ firstn 1 l)).
Fixpoint t_diffuse (n : nat) (c : compressor) (d : decompressor) (l : list Z) : bool :=
  match n with
  | O => true
  | S n => let l := diffuse l in
           delivers (d 0 (compressed (c 0 l (zeros 512) 512)) (zeros 256) 256) l && t_diffuse n c d l
  end.
Definition compress_diffuse_sw_result : bool := Eval vm_compute in
  t_diffuse 13 (sw_c LE) (sw_d LE) (fst (xbytes 256 1234)).
Example compress_diffuse_sw : compress_diffuse_sw_result = true.
Proof. reflexivity. Qed.
Definition compress_diffuse_opt_result : bool := Eval vm_compute in
  t_diffuse 13 (opt_c LE) (opt_d LE) (fst (xbytes 256 1234)).
Example compress_diffuse_opt : compress_diffuse_opt_result = true.
Proof. reflexivity. Qed.

(** test_decompress_boundscheck.c *)
Definition t_bound (d : decompressor) (ibound dbound : Z) : bool :=
  let inp := map (fun i => Z.of_nat i mod 16) (seq 0 (Z.to_nat ibound)) in
  let z := compressed (sw842_compress LE 0 inp (zeros (ibound * 4)) (ibound * 4)) in
  match d 0 z (zeros dbound ++ List.repeat 0xff (Z.to_nat (ibound - dbound))) dbound with
  | Done (ret, _, m) => (ret =? - ENOSPC) && list_eqb (skipn (Z.to_nat dbound) m) (List.repeat 0xff (Z.to_nat (ibound - dbound)))
  | _ => false
  end.
Definition decompress_boundscheck_result : bool := Eval vm_compute in
  forallb (fun d => t_bound d 256 64) decompressors && forallb (fun d => t_bound d 12 8) (both sw_d).
Example decompress_boundscheck : decompress_boundscheck_result = true.
Proof. reflexivity. Qed.

(** test_decompress_crcerror.c; the OpenCL kernel is known to accept the stream (lines 31-36). *)
Definition crcerror : list Z :=
  [0x00; 0x88; 0x88; 0x88; 0x88; 0x88; 0x88; 0x88; 0x88; 0x04; 0x84; 0x84;
   0x84; 0x84; 0x84; 0x84; 0x84; 0xbd; 0x42; 0xdf; 0xe3; 0x00; 0x00; 0x00].
Definition decompress_crcerror_result : bool := Eval vm_compute in
  forallb (fun d => returns (d 0 crcerror (zeros 48) 48) (- EINVAL)) (both sw_d ++ both opt_d)
  && forallb (fun d => returns (d 0 crcerror (zeros 48) 48) 0) (both cl_d).
Example decompress_crcerror : decompress_crcerror_result = true.
Proof. reflexivity. Qed.

(** test_decompress_invalid_simple.c *)
Definition invalid_simple : list Z :=
  [0xdc; 0x86; 0x04; 0x22; 0x39; 0x67; 0x26; 0xa7; 0xa6; 0x93; 0x2a;
   0xe5; 0x5f; 0x74; 0x50; 0x39; 0x86; 0x4c; 0xba; 0x62; 0x55; 0xf3;
   0xfb; 0xe0; 0x8f; 0x61; 0xe8; 0x14; 0x8c; 0x77; 0xc2; 0x77].
Definition decompress_invalid_simple_result : bool := Eval vm_compute in
  forallb (fun d => returns (d 0 invalid_simple (zeros 64) 64) (- EINVAL)) decompressors.
Example decompress_invalid_simple : decompress_invalid_simple_result = true.
Proof. reflexivity. Qed.

(** test_decompress_invalid_generator.c (lines 35-42), for the first 200 of its 5000 streams: optsw842_decompress and the OpenCL code are
    defined on all of them.  sw842_decompress is not: stream number 26 starts with two bytes of short data and
    a repeat template, and makes it read before its output buffer (C06).  The test does not notice. *)
Fixpoint t_generator (n : nat) (s : Z) (d : decompressor) : list bool :=
  match n with
  | O => []
  | S n => let '(l, s) := xbytes 32 s in
           match d 0 l (zeros 1024) 1024 with Done _ => true | _ => false end :: t_generator n s d
  end.
Definition decompress_invalid_generator_result : bool := Eval vm_compute in
  forallb (fun d => forallb (fun b => b) (t_generator 200 12345 d)) [opt_d LE; cl_d LE].
Example decompress_invalid_generator : decompress_invalid_generator_result = true.
Proof. reflexivity. Qed.
Definition decompress_invalid_generator_sw_result : list bool := Eval vm_compute in t_generator 200 12345 (sw_d LE).
Example decompress_invalid_generator_sw : decompress_invalid_generator_sw_result = List.repeat true 26 ++ [false] ++ List.repeat true 173.
Proof. reflexivity. Qed.

(** Constants that specifications and models share, against what is written in the headers: include/lib842/common.h:66-69,
    include/lib842/stream/common.h:24-26; and <errno.h>, <stdint.h> on 64-bit Linux. *)
From Verif Require StreamBlockModel CryptodevModel.
Example shared_constants :
  OclModel.MARKER = [190; 90; 70; 191; 151; 229; 45; 215; 178; 124; 148; 26; 238; 214; 112; 118] /\
  StreamBlockModel.CHUNK_SIZE = 65536 /\ StreamBlockModel.BLOCK_SIZE = 1048576 /\
  EINVAL = 22 /\ ENOSPC = 28 /\ CBase.ENOMEM = 12 /\ CryptodevModel.ENOMEM = 12 /\ CryptodevModel.UINT32_MAX = 4294967295 /\ SIZE_MAX = 18446744073709551615.
Proof. repeat split. Qed.
