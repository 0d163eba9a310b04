(** Specification vocabulary for the sample program of the streams. *)
From Coq Require Import ZArith List Bool.
From Verif Require Import SpecBits CBase ChunkedModel StreamBlockModel SpecBlock SpecStream StreamSampleModel.
Import ListNotations.
Open Scope Z_scope.

(** Spurious wakeups. *)
Definition is_wake (a : saction) : bool := match a with YCompWake _ | YDecompWake _ => true | _ => false end.

(** The program is run with the software codecs, on bytes, with at least one thread; what the arrays on the stack and the
    chunk buffers contain at first is arbitrary. *)
Record sample_setting (e : endian) (gc gd : chunked_impl) (inp : list Z) (n : nat) (crets : Z -> list Z) (cbuf : Z -> Z * list Z) (drets : Z -> list Z) : Prop := {
  ss_comp : In gc [sw842_compress_chunked e; optsw842_compress_chunked e];
  ss_decomp : In gd [sw842_decompress_chunked e; optsw842_decompress_chunked e];
  ss_bytes : is_bytes inp;
  ss_length : lenZ inp <= 2 ^ 63;
  ss_threads : 1 <= Z.of_nat n < 2 ^ 32;
  ss_crets : forall off, length (crets off) = 16%nat;
  ss_cbuf : forall off, is_bytes (snd (cbuf off)) /\ lenZ (snd (cbuf off)) = BLOCK_SIZE;
  ss_drets : forall k, length (drets k) = 16%nat }.
(** Assertions are off, or every chunk of every block is compressed. *)
Definition no_raw_chunk (gc : chunked_impl) (ndebug : bool) (inp : list Z) (iaddr : Z) (crets : Z -> list Z) (cbuf : Z -> Z * list Z) : Prop :=
  ndebug = true \/ forall off b j, block_offset (lenZ inp) off -> the_block gc inp iaddr crets cbuf off = Done b -> ~ stored_raw b j.
