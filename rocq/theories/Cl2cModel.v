(** Model of /repo/src/tools/cl2c.cpp, which turns the OpenCL kernel into C source at build time. *)
From Coq Require Import ZArith List Bool Ascii String.
Import ListNotations.
Open Scope Z_scope.

(** The bytes of an (ASCII) string of the source text. (No counterpart in /repo: the string literals of cl2c.cpp:18-38.) *)
Definition bytes_of (s : string) : list Z := map (fun c => Z.of_nat (nat_of_ascii c)) (list_ascii_of_string s).
(** cl2c.cpp:23: '\n'. *)
Definition NL : Z := 10.
(** cl2c.cpp:29: the character 34. *)
Definition QUOTE : Z := 34.
(** cl2c.cpp:26: '\\'. *)
Definition BACKSLASH : Z := 92.
(** cl2c.cpp:24: the letter n of an escape sequence. *)
Definition LETTER_N : Z := 110.

(** cl2c.cpp:22-35: the output for one character; the loop ends at the end of the file. *)
Definition emit (c : Z) : list Z :=
  if c =? NL then [BACKSLASH; LETTER_N; QUOTE; NL; QUOTE]
  else if c =? BACKSLASH then [BACKSLASH; BACKSLASH]
  else if c =? QUOTE then [BACKSLASH; QUOTE]
  else [c].
(** cl2c.cpp:21-36: the loop over the file. *)
Fixpoint emit_all (input : list Z) : list Z :=
  match input with
  | [] => []
  | c :: rest => emit c ++ emit_all rest
  end.

(** cl2c.cpp:6-41: main with three arguments.  [input]: the content of the input file, None if it cannot be opened (only badbit raises an exception, line 14:
    reading then ends at once).  Result: the exit status and the output file. *)
Definition cl2c (input : option (list Z)) (name : list Z) : Z * list Z :=
  let text := match input with Some l => l | None => [] end in
  (0, bytes_of "const char *" ++ name ++ bytes_of " =" ++ [NL; QUOTE] ++ emit_all text ++ [QUOTE; NL] ++ bytes_of ";" ++ [NL]).
