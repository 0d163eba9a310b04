(** Model of the test programs in /repo/test.  Each [main] becomes a function of the implementation under test, of the
    data the program uses (the built-in patterns and bit streams, the seed and the sizes are parameters here), and of the buffers it allocates.
    A buffer is its address together with what it holds before it is written to.
    The result is [Done true] for EXIT_SUCCESS, [Done false] for EXIT_FAILURE or a failed assert, and [Undef] when
    the call under test has undefined behaviour.  Not modelled: argument parsing beyond the name of the implementation, messages. *)
From Coq Require Import ZArith List Bool.
From Verif Require Import CBase SerialCompModel SerialDecompModel OptCompModel OptDecompModel ImplModel.
Import ListNotations.
Open Scope Z_scope.

(** common.h:18-29: a function to compress or to decompress: address of the input, address of the output,
    input bytes, memory at the output, capacity. *)
Definition call : Type := Z -> Z -> list Z -> list Z -> Z -> outcome (Z * Z * list Z).
(** test_util.c:31-46: the names that the test programs know. *)
Inductive name := SW | OPTSW | HW | CL.
(** common.h:55-62: struct lib842_implementation, as far as the test programs use it, with its name. *)
Record impl := mkI { i_name : name; i_compress : call; i_decompress : call; i_required : Z }.
(** test_util.c:33-34 with serial/842_compress.c:694-704: "sw". *)
Definition sw_impl (e : endian) : impl :=
  mkI SW (fun iaddr oaddr inp out olen => sw842_compress e iaddr inp out olen) (fun iaddr oaddr inp out olen => sw842_decompress e oaddr inp out olen)
      (required_alignment sw842_alignments).
(** test_util.c:35-36 with serial_optimized/842_compress.cpp:687-701: "optsw". *)
Definition optsw_impl (e : endian) : impl :=
  mkI OPTSW (optsw842_compress e) (optsw842_decompress e) (required_alignment optsw842_alignments).
(** strcmp(argv[1], "hw") == 0 and the like *)
Definition is_name (a b : name) : bool :=
  match a, b with SW, SW | OPTSW, OPTSW | HW, HW | CL, CL => true | _, _ => false end.
(** A buffer: address and initial content. *)
Definition buffer : Type := (Z * list Z)%type.
(** The first [n] bytes of a buffer, as input of the next call. *)
Definition first_bytes (n : Z) (m : list Z) : outcome (list Z) :=
  if (0 <=? n) && (n <=? lenZ m) then Done (firstn (Z.to_nat n) m) else Undef.
(** memcmp(a, b, sizeof b) != 0, negated *)
Fixpoint same_bytes (a b : list Z) : bool :=
  match a, b with
  | _, [] => true
  | [], _ :: _ => false
  | x :: a, y :: b => (x =? y) && same_bytes a b
  end.

(** test_compress_pattern.c:25-74.  [ia] and [za] are the addresses of the two inputs; the bytes of out_for_comp are copied
    to out_for_decomp (line 51). *)
Definition test_compress_pattern (c d : impl) (x : list Z) (ia : Z) (out_for_comp : buffer) (za : Z) (recovered : buffer) : outcome bool :=
  let len := lenZ x in
  '(err, olen, m) <- i_compress c ia (fst out_for_comp) x (snd out_for_comp) (len * 2 + 8) ;;
  if (err =? - EINVAL) && is_name (i_name c) HW then Done true
  else if negb (err =? 0) then Done false
  else
    z <- first_bytes olen m ;;
    '(err, rlen, r) <- i_decompress d za (fst recovered) z (snd recovered) (len + 5) ;;
    if negb (err =? 0) then Done false
    else Done ((rlen =? len) && same_bytes r x).

(** test_compress_pattern_unaligned.c:22-70: the same implementation for both directions; the three arrays are aligned to 8 bytes
    and used from their fourth byte on. *)
Definition test_compress_pattern_unaligned (i : impl) (x : list Z) (inb : Z) (outb : buffer) (recovered_inb : buffer) : outcome bool :=
  if negb (i_required i =? 1) then Done true
  else test_compress_pattern i i x (inb + 3) (fst outb + 3, snd outb) (fst outb + 3) (fst recovered_inb + 3, snd recovered_inb).

(** test_compress_pattern_barelysmall.c:21-42; test_compress_pattern_halfsmall.c:21-42 is the same program, despite its name. *)
Definition test_compress_pattern_small (i : impl) (x : list Z) (ia : Z) (out : buffer) : outcome bool :=
  '(err, olen, m) <- i_compress i ia (fst out) x (snd out) (lenZ x * 2 + 8) ;;
  if (err =? - EINVAL) && is_name (i_name i) HW then Done true
  else if negb (err =? 0) then Done false
  else
    '(err, _, _) <- i_compress i ia (fst out) x m (u64 (olen - 1)) ;;
    Done (err =? - ENOSPC).

(** test_compress_notmultipleof8.c:19-48; [out] has 128 bytes. *)
Definition test_compress_notmultipleof8 (i : impl) (x : list Z) (ia : Z) (out : buffer) : outcome bool :=
  '(ret, _, _) <- i_compress i ia (fst out) x (snd out) 128 ;;
  Done ((ret =? 0) || (ret =? - EINVAL)).

(** test_decompress_pattern.c:19-46. *)
Definition test_decompress_pattern (i : impl) (x z : list Z) (ia : Z) (out : buffer) : outcome bool :=
  '(err, olen, m) <- i_decompress i ia (fst out) z (snd out) (lenZ x + 5) ;;
  if negb (err =? 0) then Done false
  else Done ((olen =? lenZ x) && same_bytes m x).

(** test_decompress_pattern_unaligned.c:21-54. *)
Definition test_decompress_pattern_unaligned (i : impl) (x z : list Z) (inb : Z) (outb : buffer) : outcome bool :=
  if negb (i_required i =? 1) then Done true
  else test_decompress_pattern i x z (inb + 3) (fst outb + 3, snd outb).

(** test_decompress_pattern_halfsmall.c:22-32. *)
Definition test_decompress_pattern_halfsmall (i : impl) (x z : list Z) (ia : Z) (out : buffer) : outcome bool :=
  if negb (lenZ x >? 1) then Done false
  else
    '(err, _, _) <- i_decompress i ia (fst out) z (snd out) (lenZ x / 2) ;;
    Done (err =? - ENOSPC).

(** test_decompress_pattern_barelysmall.c:22-32. *)
Definition test_decompress_pattern_barelysmall (i : impl) (x z : list Z) (ia : Z) (out : buffer) : outcome bool :=
  if negb (lenZ x >? 1) then Done false
  else
    '(err, _, _) <- i_decompress i ia (fst out) z (snd out) (lenZ x - 1) ;;
    Done (err =? - ENOSPC).

(** test_decompress_crcerror.c:22-38; the output has room for twice the size of the bit stream. *)
Definition test_decompress_crcerror (i : impl) (z : list Z) (ia : Z) (out : buffer) : outcome bool :=
  '(err, _, _) <- i_decompress i ia (fst out) z (snd out) (lenZ z * 2) ;;
  if (err =? 0) && is_name (i_name i) CL then Done true
  else Done (err =? - EINVAL).

(** test_decompress_invalid_simple.c:24-33; the output has room for twice the size of the bit stream. *)
Definition test_decompress_invalid_simple (i : impl) (z : list Z) (ia : Z) (out : buffer) : outcome bool :=
  '(err, _, _) <- i_decompress i ia (fst out) z (snd out) (lenZ z * 2) ;;
  Done (err =? - EINVAL).

(** test_decompress_boundscheck.c:41-42: in[i] = i % 16 *)
Definition ramp (n : nat) : list Z := map (fun i => Z.of_nat i mod 16) (seq 0 n).
(** test_decompress_boundscheck.c:32-63: test_bound.  The guard bytes 0xFF start at [dbound]. *)
Definition test_bound (e : endian) (i : impl) (ibound dbound : Z) (ia : Z) (out : buffer) (decomp : buffer) : outcome bool :=
  let inp := ramp (Z.to_nat ibound) in
  let guarded := firstn (Z.to_nat dbound) (snd decomp) ++ List.repeat 255 (Z.to_nat (ibound - dbound)) in
  '(ret, clen, m) <- i_compress (sw_impl e) ia (fst out) inp (snd out) (ibound * 4) ;;
  if negb (ret =? 0) then Done false
  else
    z <- first_bytes clen m ;;
    '(ret, _, d) <- i_decompress i (fst out) (fst decomp) z guarded dbound ;;
    if negb (ret =? - ENOSPC) then Done false
    else Done (forallb (fun v => v =? 255) (firstn (Z.to_nat (ibound - dbound)) (skipn (Z.to_nat dbound) d))).
(** test_decompress_boundscheck.c:65-89, with the sizes 256, 64 and 12, 8 as parameters. *)
Definition test_decompress_boundscheck (e : endian) (i : impl) (ibound1 dbound1 ibound2 dbound2 : Z) (ia : Z) (out1 decomp1 out2 decomp2 : buffer) : outcome bool :=
  if is_name (i_name i) HW then Done true
  else
    ok <- test_bound e i ibound1 dbound1 ia out1 decomp1 ;;
    if negb ok then Done false
    else if is_name (i_name i) SW then test_bound e i ibound2 dbound2 ia out2 decomp2
    else Done true.

(** test_compress_diffuse.c:11-18, test_decompress_invalid_generator.c:9-16: xorshift_next, on the 32-bit seed. *)
Definition xorshift_next (s : Z) : Z :=
  let s := Z.lxor s (u32 (Z.shiftl s 13)) in
  let s := Z.lxor s (Z.shiftr s 17) in
  Z.lxor s (u32 (Z.shiftl s 5)).
(** test_compress_diffuse.c:36-38, test_decompress_invalid_generator.c:31-33: [n] bytes from the generator, and the seed after that. *)
Fixpoint random_bytes (n : nat) (s : Z) : list Z * Z :=
  match n with
  | O => ([], s)
  | S n => let s := xorshift_next s in let '(l, s') := random_bytes n s in (u8 s :: l, s')
  end.
(** test_compress_diffuse.c:44-49: every byte from its two neighbours. *)
Definition diffuse (data : list Z) : list Z :=
  let n := length data in
  map (fun i => u8 ((nth ((i + n - 1) mod n) data 0 + nth ((i + 1) mod n) data 0) / 3)) (seq 0 n).
(** test_compress_diffuse.c:40-76: [its] iterations of the loop; [da], [comp] and [uncomp] are the buffers data_buffer (address), comp_data and
    uncomp_data. *)
Fixpoint diffuse_loop (its : nat) (i : impl) (da : Z) (data : list Z) (comp uncomp : buffer) : outcome bool :=
  match its with
  | O => Done true
  | S its =>
      let data := diffuse data in
      '(ret, comp_size, c) <- i_compress i da (fst comp) data (snd comp) (2 * lenZ data) ;;
      if negb (ret =? 0) then Done false
      else
        z <- first_bytes comp_size c ;;
        '(ret, _, u) <- i_decompress i (fst comp) (fst uncomp) z (snd uncomp) (lenZ data) ;;
        if negb (ret =? 0) then Done false
        else if negb (same_bytes u data) then Done false
        else diffuse_loop its i da data (fst comp, c) (fst uncomp, u)
  end.
(** test_compress_diffuse.c:20-79, with the size 2048, the seed 1234 and the number of iterations 13 as parameters. *)
Definition test_compress_diffuse (i : impl) (size : nat) (seed : Z) (its : nat) (da : Z) (comp uncomp : buffer) : outcome bool :=
  diffuse_loop its i da (fst (random_bytes size seed)) comp uncomp.

(** test_decompress_invalid_generator.c:29-37: [runs] runs of the loop. *)
Fixpoint generator_loop (runs : nat) (i : impl) (insize : nat) (outsize : Z) (seed : Z) (ia : Z) (out : buffer) : outcome bool :=
  match runs with
  | O => Done true
  | S runs =>
      let '(inp, seed) := random_bytes insize seed in
      '(_, _, m) <- i_decompress i ia (fst out) inp (snd out) outsize ;;
      generator_loop runs i insize outsize seed ia (fst out, m)
  end.
