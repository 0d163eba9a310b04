(** Base of the model: outcomes of C code, machine words, byte buffers with
    bounds, native loads and stores, byte swapping.
    Models /repo/src/common/endianness.h, /repo/src/common/memaccess.h and the
    helpers of /repo/src/serial/kerneldeps.h. *)
From Coq Require Import ZArith List Bool.
Import ListNotations.
Open Scope Z_scope.

(** Result of running C code: a value, undefined behaviour (out-of-bounds
    access etc.), or exhaustion of the explicit loop bound of the model. (No counterpart in /repo: the ways in which a piece of C code can end.) *)
Inductive outcome (A : Type) : Type :=
| Done (a : A)
| Undef
| NoFuel.
Arguments Done {A} a.
Arguments Undef {A}.
Arguments NoFuel {A}.

(** No counterpart in /repo: one statement after another (every ';' of the C code); undefined behaviour ends the run. *)
Definition bind {A B} (x : outcome A) (f : A -> outcome B) : outcome B :=
  match x with Done a => f a | Undef => Undef | NoFuel => NoFuel end.
Notation "x <- a ;; b" := (bind a (fun x => b)) (at level 61, a at next level, right associativity).
Notation "' p <- a ;; b" := (bind a (fun p => b))
  (at level 61, p pattern, a at next level, right associativity).

(** errno values returned (negated) by the library (Linux values). (src/serial/842_compress.c:227, 842_decompress.c:89 and others.) *)
Definition EINVAL : Z := 22.
(** <errno.h>; src/serial/842_compress.c:259, 664, 673. *)
Definition ENOSPC : Z := 28.
(** <errno.h>; src/serial/842_decompress.c:123. *)
Definition EOVERFLOW : Z := 75.
(** <errno.h>; returned by src/cryptodev/842_interface.c. *)
Definition ENOMEM : Z := 12.
(** <limits.h>; src/serial/842_compress.c:672, 842_decompress.c:405. *)
Definition UINT_MAX : Z := 2 ^ 32 - 1.
(** <stdint.h>; src/common/trivial_chunked.h:19. *)
Definition SIZE_MAX : Z := 2 ^ 64 - 1.

(** Truncation to unsigned machine words. (the types uint8_t, uint16_t, uint32_t and uint64_t of <stdint.h>, which all files of /repo/src use.) *)
Definition u8 (x : Z) : Z := x mod 2 ^ 8.
(** uint16_t, see [u8]. *)
Definition u16 (x : Z) : Z := x mod 2 ^ 16.
(** uint32_t and unsigned int, see [u8]. *)
Definition u32 (x : Z) : Z := x mod 2 ^ 32.
(** uint64_t and size_t, see [u8]. *)
Definition u64 (x : Z) : Z := x mod 2 ^ 64.

(** No counterpart in /repo: the number of elements, of which C code knows nothing unless it is passed. *)
Definition lenZ {A} (l : list A) : Z := Z.of_nat (length l).

(** [a[i]] for an array whose bounds the caller has to respect. (the [] of C, e.g. src/serial/842_compress.c:162.) *)
Definition aget (a : list Z) (i : Z) : outcome Z :=
  if (0 <=? i) && (i <? lenZ a) then Done (nth (Z.to_nat i) a 0) else Undef.
(** Assignment to [a[i]], e.g. src/serial/842_compress.c:184. *)
Definition aset (a : list Z) (i v : Z) : outcome (list Z) :=
  if (0 <=? i) && (i <? lenZ a)
  then Done (firstn (Z.to_nat i) a ++ v :: skipn (S (Z.to_nat i)) a) else Undef.

(** Reading and writing [k] bytes of a buffer at an offset; any access outside
    the buffer is undefined behaviour. (the memory that memaccess.h:6-12 and kerneldeps.h:28-62 access.) *)
Definition load_bytes (m : list Z) (i k : Z) : outcome (list Z) :=
  if (0 <=? i) && (i + k <=? lenZ m)
  then Done (firstn (Z.to_nat k) (skipn (Z.to_nat i) m)) else Undef.
(** See [load_bytes]. *)
Definition store_bytes (m : list Z) (i : Z) (bs : list Z) : outcome (list Z) :=
  if (0 <=? i) && (i + lenZ bs <=? lenZ m)
  then Done (firstn (Z.to_nat i) m ++ bs ++ skipn (Z.to_nat i + length bs) m) else Undef.

(** Big-endian and little-endian value of a byte sequence, and back. (the byte orders of endianness.h:4-92.) *)
Definition be_val (l : list Z) : Z := fold_left (fun a b => 256 * a + b) l 0.
(** See [be_val]. *)
Fixpoint be_bytes (n : nat) (v : Z) : list Z :=
  match n with
  | O => []
  | S k => (v / 256 ^ Z.of_nat k) mod 256 :: be_bytes k v
  end.

(** endianness.h:16, 45, 78: __BYTE_ORDER__ of the host. *)
Inductive endian := LE | BE.

(** Native loads/stores: kerneldeps.h:28-62 (get_unaligned*, put_unaligned_le*,
    which despite their name store in native order), memaccess.h:6-12. *)
Definition native_val (e : endian) (l : list Z) : Z :=
  match e with LE => be_val (rev l) | BE => be_val l end.
(** The bytes of a number in the memory of the host (endianness.h:16-92 choose by the byte order). *)
Definition native_bytes (e : endian) (n : nat) (v : Z) : list Z :=
  match e with LE => rev (be_bytes n v) | BE => be_bytes n v end.

(** memaccess.h:6 (read16) and kerneldeps.h:28-32 (get_unaligned16). *)
Definition load16 (e : endian) (m : list Z) (i : Z) : outcome Z :=
  l <- load_bytes m i 2 ;; Done (native_val e l).
(** memaccess.h:7 (read32) and kerneldeps.h:34-38 (get_unaligned32). *)
Definition load32 (e : endian) (m : list Z) (i : Z) : outcome Z :=
  l <- load_bytes m i 4 ;; Done (native_val e l).
(** memaccess.h:8 (read64) and kerneldeps.h:40-44 (get_unaligned64). *)
Definition load64 (e : endian) (m : list Z) (i : Z) : outcome Z :=
  l <- load_bytes m i 8 ;; Done (native_val e l).
(** *p for a uint8_t *p. *)
Definition load8 (m : list Z) (i : Z) : outcome Z :=
  l <- load_bytes m i 1 ;; Done (be_val l).
(** *p = v for a uint8_t *p. *)
Definition store8 (m : list Z) (i v : Z) : outcome (list Z) := store_bytes m i [v].
(** memaccess.h:10 (write16) and kerneldeps.h:46-50 (put_unaligned_le16, which stores in native order). *)
Definition store16 (e : endian) (m : list Z) (i v : Z) := store_bytes m i (native_bytes e 2 v).
(** memaccess.h:11 (write32) and kerneldeps.h:52-56 (put_unaligned_le32, which stores in native order). *)
Definition store32 (e : endian) (m : list Z) (i v : Z) := store_bytes m i (native_bytes e 4 v).
(** memaccess.h:12 (write64) and kerneldeps.h:58-62 (put_unaligned_le64, which stores in native order). *)
Definition store64 (e : endian) (m : list Z) (i v : Z) := store_bytes m i (native_bytes e 8 v).

(** endianness.h:4-14, 32-43, 61-76 (portable branch; the x86-64 branch is the
    xchg/bswap instruction with the same meaning). *)
Definition swap_endianness16 (x : Z) : Z :=
  u16 (Z.lor (Z.shiftl (Z.land x 0x00ff) 8) (Z.shiftr (Z.land x 0xff00) 8)).
(** endianness.h:32-43. *)
Definition swap_endianness32 (x : Z) : Z :=
  Z.lor (Z.lor (Z.lor
    (u32 (Z.shiftl (Z.land x 0x000000ff) 24))
    (u32 (Z.shiftl (Z.land x 0x0000ff00) 8)))
    (Z.shiftr (Z.land x 0x00ff0000) 8))
    (Z.shiftr (Z.land x 0xff000000) 24).
(** endianness.h:61-76. *)
Definition swap_endianness64 (x : Z) : Z :=
  Z.lor (Z.lor (Z.lor (Z.lor (Z.lor (Z.lor (Z.lor
    (u64 (Z.shiftl (Z.land x 0x00000000000000ff) 56))
    (u64 (Z.shiftl (Z.land x 0x000000000000ff00) 40)))
    (u64 (Z.shiftl (Z.land x 0x0000000000ff0000) 24)))
    (u64 (Z.shiftl (Z.land x 0x00000000ff000000) 8)))
    (Z.shiftr (Z.land x 0x000000ff00000000) 8))
    (Z.shiftr (Z.land x 0x0000ff0000000000) 24))
    (Z.shiftr (Z.land x 0x00ff000000000000) 40))
    (Z.shiftr (Z.land x 0xff00000000000000) 56).

(** endianness.h:16-30, 45-59, 78-92. *)
Definition swap_be_to_native16 (e : endian) (x : Z) := match e with LE => swap_endianness16 x | BE => x end.
(** endianness.h:45-51. *)
Definition swap_be_to_native32 (e : endian) (x : Z) := match e with LE => swap_endianness32 x | BE => x end.
(** endianness.h:78-84. *)
Definition swap_be_to_native64 (e : endian) (x : Z) := match e with LE => swap_endianness64 x | BE => x end.
(** endianness.h:24-30. *)
Definition swap_native_to_be16 (e : endian) (x : Z) := match e with LE => swap_endianness16 x | BE => x end.
(** endianness.h:53-59. *)
Definition swap_native_to_be32 (e : endian) (x : Z) := match e with LE => swap_endianness32 x | BE => x end.
(** endianness.h:86-92. *)
Definition swap_native_to_be64 (e : endian) (x : Z) := match e with LE => swap_endianness64 x | BE => x end.

(** kerneldeps.h:14-18: round_up, round_down (y a power of two), DIV_ROUND_UP. *)
Definition round_up (x y : Z) : Z := Z.lor (x - 1) (y - 1) + 1.
(** kerneldeps.h:14, 16. *)
Definition round_down (x y : Z) : Z := Z.land x (Z.lnot (y - 1)).
(** kerneldeps.h:18. *)
Definition div_round_up (n d : Z) : Z := (n + d - 1) / d.
(** kerneldeps.h:10-12: GENMASK_ULL(h, 0). *)
Definition genmask_ull (h l : Z) : Z :=
  Z.land (u64 (Z.shiftl (2 ^ 64 - 1) l)) (Z.shiftr (2 ^ 64 - 1) (63 - h)).
