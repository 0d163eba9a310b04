(** The stream format of the CUDA kernel without LIB842_CUDA_STRICT, for chunks of 2^[lg] bytes: the templates of 842, but an index to
    items of n bytes is a position in the chunk, counted in items, and has as many bits as there are such positions; and there
    are no repeat, zeros and short data templates. *)
From Coq Require Import ZArith List Bool.
From Verif Require Import SpecBits Spec842 CBase.
Import ListNotations.
Open Scope Z_scope.

(** A chunk has 2^lg / n items of n = 2, 4, 8 bytes. *)
Definition flat_bits (lg n : nat) : nat := match n with 2%nat => lg - 1 | 4%nat => lg - 2 | _ => lg - 3 end.

(** The arguments of a template, as [args] of Spec842.v.  An index refers to whole words before the current one. *)
Inductive flat_args (lg : nat) : list Z -> list action -> list bool -> list Z -> list bool -> Prop :=
| flat_nil : forall out bs, flat_args lg out [] bs out bs
| flat_data : forall out n d acts bs out' rest,
    length d = n -> is_bytes d ->
    flat_args lg (out ++ d) acts bs out' rest ->
    flat_args lg out (D n :: acts) (bytes_bits d ++ bs) out' rest
| flat_index : forall out n i acts bs out' rest,
    (i < 2 ^ flat_bits lg n)%nat -> (i * n + n <= 8 * (length out / 8))%nat ->
    flat_args lg (out ++ slice (i * n) n out) acts bs out' rest ->
    flat_args lg out (I n :: acts) (bits_of (flat_bits lg n) (Z.of_nat i) ++ bs) out' rest.

(** [flat_stream lg before bits after rest]: as [stream] of Spec842.v. *)
Inductive flat_stream (lg : nat) : list Z -> list bool -> list Z -> list bool -> Prop :=
| fs_end : forall out rest, flat_stream lg out (bits_of 5 0x1e ++ rest) out rest
| fs_template : forall out op acts bs out1 bs1 out' rest,
    0 <= op < 32 -> template op = Some acts ->
    flat_args lg out acts bs out1 bs1 ->
    flat_stream lg out1 bs1 out' rest ->
    flat_stream lg out (bits_of 5 op ++ bs) out' rest.
