(** The tokens of an 842 bit stream: what the FPGA front end is to deliver.
    Nothing here mentions the code. *)
From Coq Require Import ZArith List Bool.
From Verif Require Import SpecBits Spec842 SpecOptimal.
Import ListNotations.
Open Scope Z_scope.

(** A token: an opcode and the bits of its arguments. *)
Definition token := (Z * list bool)%type.
Definition token_bits (t : token) : list bool := bits_of 5 (fst t) ++ snd t.
Definition tokens_bits (ts : list token) : list bool := flat_map token_bits ts.

(** The number of argument bits of an opcode: those of the 26 templates, 6 for "repeat"
    and none for "zeros", "end" and the opcodes that the hardware format does not use. *)
Definition args_bits (op : Z) : nat :=
  match template op with Some acts => acts_size acts | None => if op =? 0x1b then 6%nat else 0%nat end.

(** [tokens bits ts]: [bits], read one token after the other up to the first "end", are the tokens [ts].
    Bits that stop inside of a token count as "end". *)
Inductive tokens : list bool -> list token -> Prop :=
| tk_end : forall rest, tokens (bits_of 5 0x1e ++ rest) [(0x1e, [])]
| tk_op : forall op pay rest ts, 0 <= op < 32 -> op <> 0x1e -> length pay = args_bits op ->
    tokens rest ts -> tokens (bits_of 5 op ++ pay ++ rest) ((op, pay) :: ts)
| tk_short : forall bits, (length bits < 5)%nat -> tokens bits [(0x1e, [])]
| tk_cut : forall op pay, 0 <= op < 32 -> op <> 0x1e -> (length pay < args_bits op)%nat ->
    tokens (bits_of 5 op ++ pay) [(0x1e, [])].

(** On the 69-bit wires a token is left-aligned and filled up with zeros; with it goes
    a flag that says whether it is the last one. *)
Definition on_wire (t : token) : Z := val (token_bits t ++ List.repeat false (69 - length (token_bits t))).
Fixpoint wired (ts : list token) : list (Z * bool) :=
  match ts with
  | [] => []
  | t :: ts => (on_wire t, match ts with [] => true | _ => false end) :: wired ts
  end.

(** A 128-bit input element carries 16 bytes, the first one in the lowest eight bits;
    the last element of a transfer is flagged. *)
Definition element (b : list Z) : Z := val (bytes_bits (rev b)).
Fixpoint transfer (bs : list (list Z)) : list (Z * bool) :=
  match bs with
  | [] => []
  | b :: bs => (element b, match bs with [] => true | _ => false end) :: transfer bs
  end.
