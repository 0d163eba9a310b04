(** Model of the FPGA (high-level synthesis) front end, /repo/src/hls/842_decomp.cpp.
    Only [opcode_tokenizer] and what it calls is active code: hw842_decompress (lines 226-444) is inside
    of #ifdef NOSYNTH, a macro nobody defines (line 4 defines NO_SYNTH), and main (445-506)
    is a demonstration. *)
From Coq Require Import ZArith List Bool.
From Verif Require Import CBase.
Import ListNotations.
Open Scope Z_scope.

(** ap_uint<w>::operator()(hi, lo), read and assigned.  A range that is not inside of the number
    is outside of what the type defines: [Undef]. (used in 842_decomp.cpp:58-73, 175-200.) *)
Definition range_ok (w hi lo : Z) : bool := (0 <=? lo) && (lo <=? hi) && (hi <? w).
(** v(hi, lo) read. (used in 842_decomp.cpp:58-73.) *)
Definition range_get (w v hi lo : Z) : outcome Z :=
  if range_ok w hi lo then Done (Z.shiftr v lo mod 2 ^ (hi - lo + 1)) else Undef.
(** v(hi, lo) = x. (used in 842_decomp.cpp:58-73, 175-200.) *)
Definition range_set (w v hi lo x : Z) : outcome Z :=
  if range_ok w hi lo
  then Done (Z.lor (Z.ldiff v (Z.shiftl (Z.ones (hi - lo + 1)) lo)) (Z.shiftl (x mod 2 ^ (hi - lo + 1)) lo))
  else Undef.

(** 842_decomp.cpp:9-31: constants. *)
Definition INPUT_STREAM_WIDTH : Z := 128.
(** 842_decomp.cpp:11. *)
Definition BUFFER_WIDTH : Z := 266.
(** 842_decomp.cpp:13. *)
Definition TOKEN_WIDTH : Z := 69.
(** 842_decomp.cpp:18. *)
Definition OP_END : Z := 0x1e.
(** 842_decomp.cpp:21. *)
Definition OP_BITS : Z := 5.
(** 842_decomp.cpp:22. *)
Definition REPEAT_BITS : Z := 6.
(** 842_decomp.cpp:23. *)
Definition I2_BITS : Z := 8.
(** 842_decomp.cpp:24. *)
Definition I4_BITS : Z := 9.
(** 842_decomp.cpp:25. *)
Definition I8_BITS : Z := 8.
(** 842_decomp.cpp:26. *)
Definition D2_BITS : Z := 16.
(** 842_decomp.cpp:27. *)
Definition D4_BITS : Z := 32.
(** 842_decomp.cpp:28. *)
Definition D8_BITS : Z := 64.
(** 842_decomp.cpp:30. *)
Definition N0_BITS : Z := 0.

(** 842_decomp.cpp:53-76: swap_endianness_input.  The variable [output] starts unset; every bit of
    it is assigned. *)
Definition swap_ranges : list (Z * Z * Z * Z) :=
  [(7, 0, 127, 120); (15, 8, 119, 112); (23, 16, 111, 104); (31, 24, 103, 96);
   (39, 32, 95, 88); (47, 40, 87, 80); (55, 48, 79, 72); (63, 56, 71, 64);
   (71, 64, 63, 56); (79, 72, 55, 48); (87, 80, 47, 40); (95, 88, 39, 32);
   (103, 96, 31, 24); (111, 104, 23, 16); (119, 112, 15, 8); (127, 120, 7, 0)].
(** 842_decomp.cpp:58-73: the assignments, in their order. *)
Fixpoint swap_loop (l : list (Z * Z * Z * Z)) (input output : Z) : outcome Z :=
  match l with
  | [] => Done output
  | (h, o, h', o') :: l =>
    x <- range_get INPUT_STREAM_WIDTH input h' o' ;;
    output <- range_set INPUT_STREAM_WIDTH output h o x ;;
    swap_loop l input output
  end.
(** 842_decomp.cpp:53-76. *)
Definition swap_endianness_input (input : Z) : outcome Z := swap_loop swap_ranges input 0.

(** 842_decomp.cpp:98-163: get_parameter_length. *)
Definition get_parameter_length (op : Z) : Z :=
  match op with
  | 0x00 => D8_BITS + N0_BITS + N0_BITS + N0_BITS
  | 0x01 => D4_BITS + D2_BITS + I2_BITS + N0_BITS
  | 0x02 => D4_BITS + I2_BITS + D2_BITS + N0_BITS
  | 0x03 => D4_BITS + I2_BITS + I2_BITS + N0_BITS
  | 0x04 => D4_BITS + I4_BITS + N0_BITS + N0_BITS
  | 0x05 => D2_BITS + I2_BITS + D4_BITS + N0_BITS
  | 0x06 => D2_BITS + I2_BITS + D2_BITS + I2_BITS
  | 0x07 => D2_BITS + I2_BITS + I2_BITS + D2_BITS
  | 0x08 => D2_BITS + I2_BITS + I2_BITS + I2_BITS
  | 0x09 => D2_BITS + I2_BITS + I4_BITS + N0_BITS
  | 0x0a => I2_BITS + D2_BITS + D4_BITS + N0_BITS
  | 0x0b => I2_BITS + D4_BITS + I2_BITS + N0_BITS
  | 0x0c => I2_BITS + D2_BITS + I2_BITS + D2_BITS
  | 0x0d => I2_BITS + D2_BITS + I2_BITS + I2_BITS
  | 0x0e => I2_BITS + D2_BITS + I4_BITS + N0_BITS
  | 0x0f => I2_BITS + I2_BITS + D4_BITS + N0_BITS
  | 0x10 => I2_BITS + I2_BITS + D2_BITS + I2_BITS
  | 0x11 => I2_BITS + I2_BITS + I2_BITS + D2_BITS
  | 0x12 => I2_BITS + I2_BITS + I2_BITS + I2_BITS
  | 0x13 => I2_BITS + I2_BITS + I4_BITS + N0_BITS
  | 0x14 => I4_BITS + D4_BITS + N0_BITS + N0_BITS
  | 0x15 => I4_BITS + D2_BITS + I2_BITS + N0_BITS
  | 0x16 => I4_BITS + I2_BITS + D2_BITS + N0_BITS
  | 0x17 => I4_BITS + I2_BITS + I2_BITS + N0_BITS
  | 0x18 => I4_BITS + I4_BITS + N0_BITS + N0_BITS
  | 0x19 => I8_BITS + N0_BITS + N0_BITS + N0_BITS
  | 0x1b => REPEAT_BITS
  | _ => 0
  end.

(** hls::stream::read.  An input element is its data and its flag "last" (842_decomp.cpp:35-40; the members keep
    and strb are never read).  Reading from an empty stream blocks the hardware for ever: [Undef]. *)
Definition in_read (s : list (Z * bool)) : outcome (Z * bool * list (Z * bool)) :=
  match s with [] => Undef | x :: s => Done (x, s) end.

(** The variables of opcode_tokenizer that live over an iteration (842_decomp.cpp:168-179): the input stream,
    input.last, input_buffer (266 bits) and input_buffer_bits (9 bits). *)
Record tstate := TS { t_in : list (Z * bool); t_last : bool; t_buf : Z; t_bits : Z }.

(** 842_decomp.cpp:182-222: one iteration; the result is the element written to [out], which says in its flag
    whether the loop ends, and the state after. *)
Definition tok_step (s : tstate) : outcome ((Z * bool) * tstate) :=
  buf <- (if t_last s && (t_bits s <? OP_BITS)
          then range_set BUFFER_WIDTH (t_buf s) (BUFFER_WIDTH - 1) (BUFFER_WIDTH - OP_BITS) OP_END
          else Done (t_buf s)) ;;
  op <- range_get BUFFER_WIDTH buf (BUFFER_WIDTH - 1) (BUFFER_WIDTH - OP_BITS) ;;
  let payload_length := get_parameter_length op in
  cut <- (if t_last s && (t_bits s <? OP_BITS + payload_length)
          then buf <- range_set BUFFER_WIDTH buf (BUFFER_WIDTH - 1) (BUFFER_WIDTH - OP_BITS) OP_END ;;
               Done (buf, OP_END, 0)
          else Done (buf, op, payload_length)) ;;
  let '(buf, op, payload_length) := cut in
  let out_last := op =? OP_END in
  fill <- (if negb (t_last s) && (t_bits s <? 2 * TOKEN_WIDTH)
           then r <- in_read (t_in s) ;;
                let '((data, last), rest) := r in
                x <- swap_endianness_input data ;;
                buf <- range_set BUFFER_WIDTH buf (BUFFER_WIDTH - t_bits s - 1)
                         (BUFFER_WIDTH - INPUT_STREAM_WIDTH - t_bits s) x ;;
                Done (TS rest last buf ((t_bits s + INPUT_STREAM_WIDTH) mod 2 ^ 9))
           else Done (TS (t_in s) (t_last s) buf (t_bits s))) ;;
  x <- range_get BUFFER_WIDTH (t_buf fill) (BUFFER_WIDTH - 1) (BUFFER_WIDTH - OP_BITS - payload_length) ;;
  data <- range_set TOKEN_WIDTH 0 (TOKEN_WIDTH - 1) (TOKEN_WIDTH - OP_BITS - payload_length) x ;;
  Done ((data, out_last),
        TS (t_in fill) (t_last fill)
           (Z.shiftl (t_buf fill) (OP_BITS + payload_length) mod 2 ^ BUFFER_WIDTH)
           ((t_bits fill - (OP_BITS + payload_length)) mod 2 ^ 9)).

(** 842_decomp.cpp:181-223: the loop.  [fuel] bounds the iterations; the theorems show that it suffices. *)
Fixpoint tok_loop (fuel : nat) (s : tstate) : outcome (list (Z * bool) * list (Z * bool)) :=
  match fuel with
  | O => NoFuel
  | S fuel =>
    r <- tok_step s ;;
    let '(o, s) := r in
    if snd o then Done ([o], t_in s)
    else t <- tok_loop fuel s ;;
         let '(os, unread) := t in Done (o :: os, unread)
  end.

(** 842_decomp.cpp:166-224: opcode_tokenizer.  The result: what was written to [out] and what is left in [in]. *)
Definition opcode_tokenizer (inp : list (Z * bool)) : outcome (list (Z * bool) * list (Z * bool)) :=
  r <- in_read inp ;;
  let '((data, last), rest) := r in
  x <- swap_endianness_input data ;;
  buf <- range_set BUFFER_WIDTH 0 (BUFFER_WIDTH - 1) (BUFFER_WIDTH - INPUT_STREAM_WIDTH) x ;;
  tok_loop (S (26 * length inp)) (TS rest last buf INPUT_STREAM_WIDTH).
