(** Model of the sample program for the streams as a whole: main and simple_test_core of sample/compdecomp_streams.cpp with
    sample/compdecomp_driver.c, around compress_benchmark_core (StreamSampleModel.v). *)
From Coq Require Import ZArith List Bool.
From Verif Require Import CBase ConcLib ChunkedModel StreamBlockModel StreamSampleModel BenchModel.
Import ListNotations.
Open Scope Z_scope.

(** compdecomp_driver.c:157-160 with compdecomp_streams.cpp:268: the input; the "chunk size" of the driver is that of a block. *)
Definition streams_input (file : option (list Z)) : list Z := match file with Some f => read_file f BLOCK_SIZE | None => TEST_STRING end.

(** compdecomp_streams.cpp:185-189: *olen, from comp_blocks, modulo 2^64.  (It is computed before the blocks are given to the decompression stream; comp_blocks does not
    change in the model then, so that it can be computed from any later state.) *)
Definition reported (y : sys) : Z := fold_left (fun t b => fold_left (fun t n => u64 (t + n)) (b_sizes b) t) (y_blocks y) 0.

(** The state of the program: in the simple test, which has no other threads and is one step (its result: the exit status and the first dlen bytes of
    "decompressed"), or in compress_benchmark_core. (compdecomp_streams.cpp:99-262.) *)
Inductive program := Simple (r : outcome (Z * list Z)) | Streams (y : sys).

Section Program.
Variable I : implementation.
(** Whether NDEBUG is defined. *)
Variable ndebug : bool.
(** The content of the file; None: the program was started without one. *)
Variable file : option (list Z).
(** The addresses of in, out and decompressed. *)
Variable iaddr oaddr daddr : Z.
(** As in StreamSampleModel.v: the number of threads, and what is not initialised. *)
Variable n : nat.
Variable crets : Z -> list Z.
Variable cbuf : Z -> Z * list Z.
Variable drets : Z -> list Z.

(** compdecomp_driver.c:153-201 and compdecomp_streams.cpp:242-263 (which is the same as compdecomp.c:270-291). *)
Definition program_start : program :=
  let inp := streams_input file in
  if lenZ inp >? BLOCK_SIZE then Streams (sample_start inp n)
  else
    Simple ('(r, dlen, d) <- simple_test I iaddr oaddr daddr inp (repeat 0 (Z.to_nat (lenZ inp * 2))) (repeat 0 (length inp)) ;;
            Done (if r then 0 else 1, firstn (Z.to_nat dlen) d)).

(** A step of a thread. (compdecomp_streams.cpp:99-262.) *)
Definition program_step (a : saction) (p : program) : option program :=
  match p with
  | Simple _ => None
  | Streams y => option_map Streams (ystep (i_compress_chunked I) (i_decompress_chunked I) ndebug (streams_input file) iaddr daddr n crets cbuf drets a y)
  end.
End Program.

(** compdecomp_driver.c:165-200: the exit status of the program that has ended, and the data it has restored. *)
Definition finished (p : program) : option (Z * list Z) :=
  match p with
  | Simple (Done v) => Some v
  | Simple _ => None
  | Streams y => match y_pc y with MReturn r => Some (if r then 0 else 1, y_mem y) | _ => None end
  end.
