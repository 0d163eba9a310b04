(** Specification of the sample program for the streams as a whole. *)
From Coq Require Import ZArith List Bool.
From Verif Require Import SpecBits CBase StreamBlockModel SpecOcl BenchModel SpecBench StreamSampleModel StreamMainModel.
Import ListNotations.
Open Scope Z_scope.

(** What the program has to restore. *)
Definition target (file : option (list Z)) : list Z := match file with Some f => padded BLOCK_SIZE f | None => TEST_STRING end.
(** The number of bytes a chunk [x] needs in a stream: what the single call to the compressor reports, but a whole chunk if less than 24 bytes would be saved. *)
Definition stream_size (I : implementation) (x : list Z) : Z := if stored_size I x <=? CHUNK_SIZE - 24 then stored_size I x else CHUNK_SIZE.
(** Undefined behaviour, an endless loop or a failed assertion. *)
Definition crashed (p : program) : Prop :=
  match p with
  | Simple (Done _) => False
  | Simple _ => True
  | Streams y => y_pc y = MAbort \/ y_pc y = MBroken
  end.
(** The program is built for sw842 or optsw842 and run with a file of bytes that is not empty (or none), and with at least one thread; the allocated
    buffers are aligned; what is not initialised is arbitrary. *)
Record program_setting (e : endian) (I : implementation) (file : option (list Z)) (iaddr oaddr daddr : Z) (n : nat)
  (crets : Z -> list Z) (cbuf : Z -> Z * list Z) (drets : Z -> list Z) : Prop := {
  ps_impl : In I [sw842_implementation e; optsw842_implementation e];
  ps_file : forall f, file = Some f -> is_bytes f /\ f <> [] /\ lenZ f <= 2 ^ 62;
  ps_in : iaddr mod i_preferred I = 0;
  ps_out : oaddr mod i_preferred I = 0;
  ps_dec : daddr mod i_preferred I = 0;
  ps_threads : 1 <= Z.of_nat n < 2 ^ 32;
  ps_crets : forall off, length (crets off) = 16%nat;
  ps_cbuf : forall off, fst (cbuf off) mod i_preferred I = 0 /\ is_bytes (snd (cbuf off)) /\ lenZ (snd (cbuf off)) = BLOCK_SIZE;
  ps_drets : forall k, length (drets k) = 16%nat }.
(** The file has more than one block, and a chunk whose compression saves less than 24 bytes. *)
Definition incompressible (I : implementation) (file : option (list Z)) : Prop :=
  BLOCK_SIZE < lenZ (target file) /\ exists x, In x (chunks_of CHUNK_SIZE (target file)) /\ CHUNK_SIZE - 24 < stored_size I x.
