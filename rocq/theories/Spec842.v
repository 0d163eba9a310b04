(** The 842 compressed format, transcribed from the English description in
    /repo/src/common/842.h (lines 4-73) as an inductive relation between bit
    strings and byte strings.  Nothing here mentions the code. *)
From Coq Require Import ZArith List Bool.
From Verif Require Import SpecBits SpecCrc.
Import ListNotations.
Open Scope Z_scope.

(** A template argument is either [D n] (n literal bytes) or [I n] (an index
    denoting n bytes already in the output). *)
Inductive action := D (n : nat) | I (n : nat).

(** The 26 templates (842.h:14-23, table of the format). *)
Definition template (op : Z) : option (list action) :=
  match op with
  | 0x00 => Some [D 8]
  | 0x01 => Some [D 4; D 2; I 2]
  | 0x02 => Some [D 4; I 2; D 2]
  | 0x03 => Some [D 4; I 2; I 2]
  | 0x04 => Some [D 4; I 4]
  | 0x05 => Some [D 2; I 2; D 4]
  | 0x06 => Some [D 2; I 2; D 2; I 2]
  | 0x07 => Some [D 2; I 2; I 2; D 2]
  | 0x08 => Some [D 2; I 2; I 2; I 2]
  | 0x09 => Some [D 2; I 2; I 4]
  | 0x0a => Some [I 2; D 2; D 4]
  | 0x0b => Some [I 2; D 4; I 2]
  | 0x0c => Some [I 2; D 2; I 2; D 2]
  | 0x0d => Some [I 2; D 2; I 2; I 2]
  | 0x0e => Some [I 2; D 2; I 4]
  | 0x0f => Some [I 2; I 2; D 4]
  | 0x10 => Some [I 2; I 2; D 2; I 2]
  | 0x11 => Some [I 2; I 2; I 2; D 2]
  | 0x12 => Some [I 2; I 2; I 2; I 2]
  | 0x13 => Some [I 2; I 2; I 4]
  | 0x14 => Some [I 4; D 4]
  | 0x15 => Some [I 4; D 2; I 2]
  | 0x16 => Some [I 4; I 2; D 2]
  | 0x17 => Some [I 4; I 2; I 2]
  | 0x18 => Some [I 4; I 4]
  | 0x19 => Some [I 8]
  | _ => None
  end.

(** Bits of an index argument (842.h:34-35). *)
Definition index_bits (n : nat) : nat := match n with 4%nat => 9%nat | _ => 8%nat end.

(** Size in bytes of the ring buffer an index of [n]-byte items points into:
    512, 2048, 2048 (842.h:35-38). *)
Definition window (n : nat) : Z := Z.of_nat n * 2 ^ Z.of_nat (index_bits n).

(** Which output position an index denotes.  The output produced so far
    (whole 8-byte blocks only) is seen through a ring buffer of [window n]
    bytes: index [i] denotes the most recent position [p] that is congruent
    to [i*n] modulo the window and whose [n] bytes are all present
    (842.h:29-45). *)
Definition refers (written n : nat) (i : Z) (p : nat) : Prop :=
  let total := 8 * (Z.of_nat written / 8) in
  Z.of_nat p mod window n = i * Z.of_nat n /\
  Z.of_nat p + Z.of_nat n <= total /\
  total < Z.of_nat p + Z.of_nat n + window n.

(** [args before acts bits after rest]: the arguments of a template with
    actions [acts], encoded at the front of [bits], extend the output
    [before] to [after]; [rest] is what follows. *)
Inductive args : list Z -> list action -> list bool -> list Z -> list bool -> Prop :=
| args_nil : forall out bs, args out [] bs out bs
| args_data : forall out n d acts bs out' rest,
    length d = n -> is_bytes d ->
    args (out ++ d) acts bs out' rest ->
    args out (D n :: acts) (bytes_bits d ++ bs) out' rest
| args_index : forall out n i p acts bs out' rest,
    0 <= i < 2 ^ Z.of_nat (index_bits n) ->
    refers (length out) n i p ->
    args (out ++ slice p n out) acts bs out' rest ->
    args out (I n :: acts) (bits_of (index_bits n) i ++ bs) out' rest.

Definition last8 (out : list Z) : list Z := skipn (length out - 8) out.

(** [stream sw before bits after rest]: starting with output [before], the
    templates at the front of [bits], up to and including the "end" template,
    produce [after]; [rest] is what follows the end template.  [sw] says
    whether the software-only "short data" template is allowed. *)
Inductive stream (sw : bool) : list Z -> list bool -> list Z -> list bool -> Prop :=
| st_end : forall out rest,
    stream sw out (bits_of 5 0x1e ++ rest) out rest
| st_zeros : forall out bs out' rest,
    stream sw (out ++ List.repeat 0 8) bs out' rest ->
    stream sw out (bits_of 5 0x1c ++ bs) out' rest
| st_repeat : forall out n bs out' rest,
    0 <= n < 64 -> (8 <= length out)%nat ->
    stream sw (out ++ copies (Z.to_nat n + 1) (last8 out)) bs out' rest ->
    stream sw out (bits_of 5 0x1b ++ bits_of 6 n ++ bs) out' rest
| st_short : forall out d bs out' rest,
    sw = true ->
    (1 <= length d <= 7)%nat -> is_bytes d ->
    stream sw (out ++ d) bs out' rest ->
    stream sw out (bits_of 5 0x1d ++ bits_of 3 (Z.of_nat (length d)) ++ bytes_bits d ++ bs)
           out' rest
| st_template : forall out op acts bs out1 bs1 out' rest,
    0 <= op < 32 -> template op = Some acts ->
    args out acts bs out1 bs1 ->
    stream sw out1 bs1 out' rest ->
    stream sw out (bits_of 5 op ++ bs) out' rest.

(** [valid_842 sw input x]: the bytes [input] start with a well-formed stream
    denoting [x], followed by the 32-bit CRC of [x]; anything may follow. *)
Definition valid_842 (sw : bool) (input x : list Z) : Prop :=
  exists rest, stream sw [] (bytes_bits input) x (bits_of 32 (crc32 x) ++ rest).

(** The bits of one "short data" and one "repeat" template. *)
Definition short_template (d : list Z) : list bool :=
  bits_of 5 0x1d ++ bits_of 3 (Z.of_nat (length d)) ++ bytes_bits d.
Definition repeat_template (n : Z) : list bool := bits_of 5 0x1b ++ bits_of 6 n.
