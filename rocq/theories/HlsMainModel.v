(** Model of main() of /repo/src/hls/842_decomp.cpp (lines 447-505), which reads back the tokens that opcode_tokenizer writes. *)
From Coq Require Import ZArith List Bool.
From Verif Require Import CBase HlsModel.
Import ListNotations.
Open Scope Z_scope.

(** 842_decomp.cpp:9. *)
Definition OUTPUT_STREAM_WIDTH : Z := 64.

(** 842_decomp.cpp:495-503: the two numbers that are printed for a token: op and parameter.  A shift of an ap_uint by its width or more gives 0. *)
Definition show_token (data : Z) : outcome (Z * Z) :=
  op <- range_get TOKEN_WIDTH data (TOKEN_WIDTH - 1) (TOKEN_WIDTH - OP_BITS) ;;
  let parameter_length := get_parameter_length op in
  x <- range_get TOKEN_WIDTH data (TOKEN_WIDTH - OP_BITS - 1) 0 ;;
  let parameter := x mod 2 ^ OUTPUT_STREAM_WIDTH in
  Done (op, Z.shiftr parameter (OUTPUT_STREAM_WIDTH - parameter_length)).

(** 842_decomp.cpp:493-504: the loop over streamOut; what is printed and what is left in the stream.  It ends at the latest when the
    stream is empty, where it would wait for ever (see [in_read]). *)
Fixpoint show_loop (s : list (Z * bool)) : outcome (list (Z * Z) * list (Z * bool)) :=
  match s with
  | [] => Undef
  | (data, last) :: s =>
    l <- show_token data ;;
    if last : bool then Done ([l], s) else '(ls, s) <- show_loop s ;; Done (l :: ls, s)
  end.

(** 842_decomp.cpp:449-505: main, for any content of streamIn.  (Simplification: the numbers of each line and not its text.) *)
Definition hls_main (inp : list (Z * bool)) : outcome (list (Z * Z) * list (Z * bool)) :=
  '(out, _) <- opcode_tokenizer inp ;; show_loop out.

(** 842_decomp.cpp:454-458: the input of the program: (element1, element0) is their concatenation. *)
Definition hls_main_input : list (Z * bool) := [(Z.lor (Z.shiftl 0x000000000000809F 64) 0x9991918989818101, true)].
