(** A reading of 842 streams that records, for each index argument, which output
    bytes it copies.  Unlike [Spec842.refers] it puts no window condition on the
    copied position: any already produced position that the index can name (modulo
    the ring buffer size) is allowed, and is recorded. *)
From Coq Require Import ZArith List Bool.
From Verif Require Import SpecBits Spec842.
Import ListNotations.
Open Scope Z_scope.

(** (bytes produced before the copy, size of the copy, position copied from) *)
Record reference := mkRef { ref_written : nat; ref_size : nat; ref_pos : nat }.

Inductive args_refs : list Z -> list action -> list bool -> list Z -> list bool -> list reference -> Prop :=
| ar_nil : forall out bs, args_refs out [] bs out bs []
| ar_data : forall out n d acts bs out' rest refs,
    length d = n -> is_bytes d ->
    args_refs (out ++ d) acts bs out' rest refs ->
    args_refs out (D n :: acts) (bytes_bits d ++ bs) out' rest refs
| ar_index : forall out n i p acts bs out' rest refs,
    0 <= i < 2 ^ Z.of_nat (index_bits n) ->
    Z.of_nat p mod window n = i * Z.of_nat n ->
    args_refs (out ++ slice p n out) acts bs out' rest refs ->
    args_refs out (I n :: acts) (bits_of (index_bits n) i ++ bs) out' rest (mkRef (length out) n p :: refs).

Inductive stream_refs : list Z -> list bool -> list Z -> list bool -> list reference -> Prop :=
| sr_end : forall out rest, stream_refs out (bits_of 5 0x1e ++ rest) out rest []
| sr_zeros : forall out bs out' rest refs,
    stream_refs (out ++ List.repeat 0 8) bs out' rest refs ->
    stream_refs out (bits_of 5 0x1c ++ bs) out' rest refs
| sr_repeat : forall out n bs out' rest refs,
    0 <= n < 64 ->
    stream_refs (out ++ copies (Z.to_nat n + 1) (last8 out)) bs out' rest refs ->
    stream_refs out (bits_of 5 0x1b ++ bits_of 6 n ++ bs) out' rest (mkRef (length out) 8 (length out - 8) :: refs)
| sr_short : forall out d bs out' rest refs,
    (1 <= length d <= 7)%nat -> is_bytes d ->
    stream_refs (out ++ d) bs out' rest refs ->
    stream_refs out (bits_of 5 0x1d ++ bits_of 3 (Z.of_nat (length d)) ++ bytes_bits d ++ bs) out' rest refs
| sr_template : forall out op acts bs out1 bs1 out' rest refs1 refs,
    0 <= op < 32 -> template op = Some acts ->
    args_refs out acts bs out1 bs1 refs1 ->
    stream_refs out1 bs1 out' rest refs ->
    stream_refs out (bits_of 5 op ++ bs) out' rest (refs1 ++ refs).

(** The copied bytes are among the bytes produced before the copy and at most one
    window before the last 8-byte boundary. *)
Definition in_window (r : reference) : Prop :=
  Z.of_nat (ref_pos r) + Z.of_nat (ref_size r) <= Z.of_nat (ref_written r) /\
  8 * (Z.of_nat (ref_written r) / 8) - window (ref_size r) <= Z.of_nat (ref_pos r).
