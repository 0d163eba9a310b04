(** Model of /repo/src/serial_optimized/bitstream.cpp and
    /repo/src/serial_optimized/842_compress.cpp (optsw842_compress), as built:
    LIB842_CUDA_STRICT defined, BRANCH_FREE 0 (842-internal.h:6-13), CRC enabled. *)
From Coq Require Import ZArith List Bool.
From Verif Require Import CBase CrcModel SerialCompModel OpcodesTable.
Import ListNotations.
Open Scope Z_scope.

(** * bitstream.cpp *)

(** bitstream.cpp:18-24: struct bitstream.  [s_mem] is the memory behind the
    buffer, [s_ptr] and [s_end] count 64-bit words from its beginning. *)
Record bitstream := mkBS { s_mem : list Z; s_ptr : Z; s_end : Z; s_buffer : Z; s_bits : Z }.

(** Result of code that may throw bitstream_full_exception (bitstream.h:17-22):
    the flag is false when the exception was thrown. *)
Definition sres := outcome (bool * bitstream).
(** What follows is done unless the exception was thrown. (842_compress.cpp:672.) *)
Definition andthen (a : sres) (k : bitstream -> sres) : sres :=
  '(ok, s) <- a ;; if ok : bool then k s else Done (false, s).

(** bitstream.cpp:94-104, 69-74: stream_open (malloc succeeds), stream_rewind. *)
Definition stream_open (mem : list Z) (bytes : Z) : bitstream := mkBS mem 0 (bytes / 8) 0 0.
(** bitstream.cpp:40-43: stream_size. *)
Definition stream_size (s : bitstream) : Z := 8 * s_ptr s.

Section Endian.
Variable e : endian.

(** bitstream.cpp:29-35: stream_write_word. *)
Definition stream_write_word (s : bitstream) (value : Z) : sres :=
  if s_ptr s =? s_end s then Done (false, s)
  else
    m <- store64 e (s_mem s) (8 * s_ptr s) (swap_native_to_be64 e value) ;;
    Done (true, mkBS m (s_ptr s + 1) (s_end s) (s_buffer s) (s_bits s)).

(** A shift of a 64-bit word; undefined for shift counts outside 0..63. *)
Definition shl64 (v n : Z) : outcome Z := if (0 <=? n) && (n <=? 63) then Done (u64 (Z.shiftl v n)) else Undef.
(** A right shift of a 64-bit word; undefined as for [shl64]. *)
Definition shr64 (v n : Z) : outcome Z := if (0 <=? n) && (n <=? 63) then Done (Z.shiftr v n) else Undef.

(** bitstream.cpp:46-66: stream_write_bits. *)
Definition stream_write_bits (s : bitstream) (value n : Z) : sres :=
  value <- shl64 value (64 - n) ;;
  low <- shr64 value (s_bits s) ;;
  let buffer := Z.lor (s_buffer s) low in
  let bits := u8 (s_bits s + n) in
  if bits >=? 64 then
    value <- shl64 value 1 ;;
    let n := n - 1 in
    let bits := bits - 64 in
    andthen (stream_write_word (mkBS (s_mem s) (s_ptr s) (s_end s) buffer bits) buffer) (fun s' =>
      buffer' <- shl64 value (n - bits) ;;
      Done (true, mkBS (s_mem s') (s_ptr s') (s_end s') buffer' (s_bits s')))
  else Done (true, mkBS (s_mem s) (s_ptr s) (s_end s) buffer bits).

(** bitstream.cpp:77-83, 86-91: stream_flush; stream_pad is called with
    n = 64 - s->bits, so its loop runs exactly once. *)
Definition stream_flush (s : bitstream) : sres :=
  let bits := (64 - s_bits s) mod 64 in
  if bits =? 0 then Done (true, s)
  else
    andthen (stream_write_word (mkBS (s_mem s) (s_ptr s) (s_end s) (s_buffer s) (s_bits s + bits)) (s_buffer s)) (fun s' =>
      Done (true, mkBS (s_mem s') (s_ptr s') (s_end s') 0 (s_bits s' - 64))).

(** * 842_compress.cpp *)

(** 842_compress.cpp:33-35, 60-62. *)
Definition DICT16_BITS : Z := 10.
(** 842_compress.cpp:34. *)
Definition DICT32_BITS : Z := 11.
(** 842_compress.cpp:35. *)
Definition DICT64_BITS : Z := 10.
(** 842_compress.cpp:60. *)
Definition PRIME64 : Z := 11400714785074694791.
(** 842_compress.cpp:62. *)
Definition NO_ENTRY : Z := -1.

(** 842_compress.cpp:37-58: the part of struct sw842_param that survives from one
    8-byte block to the next.  The rolling fifos are not initialised by the
    code: [None] marks a slot that has not been written; reading it is
    undefined. *)
Record ostate := mkO {
  o_hashes : list Z;
  o_t16 : list Z; o_t32 : list Z; o_t64 : list Z;
  o_f16 : list (option Z); o_f32 : list (option Z); o_f64 : list (option Z) }.

(** Reading an entry of a rolling fifo (842_compress.cpp:55-57). *)
Definition fget (f : list (option Z)) (i : Z) : outcome Z :=
  if (0 <=? i) && (i <? lenZ f)
  then match nth (Z.to_nat i) f None with Some v => Done v | None => Undef end
  else Undef.
(** Assignment to an entry of a rolling fifo (842_compress.cpp:55-57). *)
Definition fset (f : list (option Z)) (i v : Z) : outcome (list (option Z)) :=
  if (0 <=? i) && (i <? lenZ f)
  then Done (firstn (Z.to_nat i) f ++ Some v :: skipn (S (Z.to_nat i)) f) else Undef.

(** 842_compress.cpp:389-402: get_next_data: dataAndIndices[0..6]. *)
Definition oget_next_data (inp : list Z) (pos : Z) : outcome (list Z) :=
  d0 <- get_input16 e inp pos ;;
  d1 <- get_input16 e inp (pos + 2) ;;
  d2 <- get_input16 e inp (pos + 4) ;;
  d3 <- get_input16 e inp (pos + 6) ;;
  d4 <- get_input32 e inp pos ;;
  d5 <- get_input32 e inp (pos + 4) ;;
  d6 <- get_input64 e inp pos ;;
  Done [d0; d1; d2; d3; d4; d5; d6].

(** 842_compress.cpp:64-73: hash. *)
Definition hash1 (bits v : Z) : Z := Z.shiftr (u64 (PRIME64 * v)) (64 - bits).
(** 842_compress.cpp:64-73: hash. *)
Definition ohash (d : list Z) : list Z := [
  hash1 DICT16_BITS (nth 0 d 0);
  hash1 DICT16_BITS (nth 1 d 0);
  hash1 DICT16_BITS (nth 2 d 0);
  hash1 DICT16_BITS (nth 3 d 0);
  hash1 DICT32_BITS (nth 4 d 0);
  hash1 DICT32_BITS (nth 5 d 0);
  hash1 DICT64_BITS (nth 6 d 0) ].

(** 842_compress.cpp:75-119: find_index for one of the seven items: table [t],
    fifo [f], hash [h], data [v]: (validity, dataAndIndices entry).  The 16-bit
    masks 0xFFFF / 0x0000 are modelled as booleans. *)
Definition ofind1 (t : list Z) (f : list (option Z)) (h v : Z) : outcome (bool * Z) :=
  index <- aget t h ;;
  let isIndexValid := index >=? 0 in
  isDataValid <- (if index >=? 0 then fv <- fget f index ;; Done (fv =? v) else Done false) ;;
  let validity := isIndexValid && isDataValid in
  Done (validity, if validity then index else 0).
(** 842_compress.cpp:75-119: find_index for the seven items. *)
Definition ofind_index (st : ostate) (d : list Z) : outcome (list bool * list Z) :=
  let h := o_hashes st in
  '(v0, i0) <- ofind1 (o_t16 st) (o_f16 st) (nth 0 h 0) (nth 0 d 0) ;;
  '(v1, i1) <- ofind1 (o_t16 st) (o_f16 st) (nth 1 h 0) (nth 1 d 0) ;;
  '(v2, i2) <- ofind1 (o_t16 st) (o_f16 st) (nth 2 h 0) (nth 2 d 0) ;;
  '(v3, i3) <- ofind1 (o_t16 st) (o_f16 st) (nth 3 h 0) (nth 3 d 0) ;;
  '(v4, i4) <- ofind1 (o_t32 st) (o_f32 st) (nth 4 h 0) (nth 4 d 0) ;;
  '(v5, i5) <- ofind1 (o_t32 st) (o_f32 st) (nth 5 h 0) (nth 5 d 0) ;;
  '(v6, i6) <- ofind1 (o_t64 st) (o_f64 st) (nth 6 h 0) (nth 6 d 0) ;;
  Done ([v0; v1; v2; v3; v4; v5; v6], [i0; i1; i2; i3; i4; i5; i6]).

(** 842_compress.cpp:121-127: templateKeys. *)
Definition template_keys (v : list bool) : list Z :=
  let key (i : nat) (k : Z) := if nth i v false then k else 0 in
  [ key 0%nat (13 * 3); key 1%nat (13 * 5); key 2%nat (13 * 7); key 3%nat (13 * 11);
    key 4%nat (53 * 3); key 5%nat (53 * 5); key 6%nat (149 * 3) ].

(** 842_compress.cpp:130-146: max, get_template. *)
Definition max16 (a b : Z) : Z := if a >? b then a else b.
(** 842_compress.cpp:135-146: get_template. *)
Definition get_template (k : list Z) : outcome Z :=
  let former := max16 (nth 4 k 0) (u16 (nth 0 k 0 + nth 1 k 0)) in
  let latter := max16 (nth 5 k 0) (u16 (nth 2 k 0 + nth 3 k 0)) in
  let template_key := max16 (nth 6 k 0) (u16 (former + latter)) in
  aget ops_dict (Z.shiftr template_key 1).

(** 842_compress.cpp:148-369: add_template<K>, for K other than 0: the terms of
    the word that is written, as (position in dataAndIndices, left shift), the
    left shift of the template key, and the width of the word.  Position 14
    stands for swap_be_to_native32(read32(p->in + 2)) (line 247). *)
Definition add_template_terms (op : Z) : option (list (Z * Z) * Z * Z) :=
  match op with
  | 0x01 => Some ([(4, D2_BITS + I2_BITS); (2, I2_BITS); (10, 0)],
                  D4_BITS + D2_BITS + I2_BITS, OP_BITS + D4_BITS + D2_BITS + I2_BITS)
  | 0x02 => Some ([(4, I2_BITS + D2_BITS); (9, D2_BITS); (3, 0)],
                  D4_BITS + I2_BITS + D2_BITS, OP_BITS + D4_BITS + I2_BITS + D2_BITS)
  | 0x03 => Some ([(4, I2_BITS + I2_BITS); (9, I2_BITS); (10, 0)],
                  D4_BITS + I2_BITS + I2_BITS, OP_BITS + D4_BITS + I2_BITS + I2_BITS)
  | 0x04 => Some ([(4, I4_BITS); (12, 0)],
                  D4_BITS + I4_BITS, OP_BITS + D4_BITS + I4_BITS)
  | 0x05 => Some ([(0, I2_BITS + D4_BITS); (8, D4_BITS); (5, 0)],
                  D2_BITS + I2_BITS + D4_BITS, OP_BITS + D2_BITS + I2_BITS + D4_BITS)
  | 0x06 => Some ([(0, I2_BITS + D2_BITS + I2_BITS); (8, D2_BITS + I2_BITS); (2, I2_BITS); (10, 0)],
                  D2_BITS + I2_BITS + D2_BITS + I2_BITS, OP_BITS + D2_BITS + I2_BITS + D2_BITS + I2_BITS)
  | 0x07 => Some ([(0, I2_BITS + I2_BITS + D2_BITS); (8, I2_BITS + D2_BITS); (9, D2_BITS); (3, 0)],
                  D2_BITS + I2_BITS + I2_BITS + D2_BITS, OP_BITS + D2_BITS + I2_BITS + I2_BITS + D2_BITS)
  | 0x08 => Some ([(0, I2_BITS + I2_BITS + I2_BITS); (8, I2_BITS + I2_BITS); (9, I2_BITS); (10, 0)],
                  D2_BITS + I2_BITS + I2_BITS + I2_BITS, OP_BITS + D2_BITS + I2_BITS + I2_BITS + I2_BITS)
  | 0x09 => Some ([(0, I2_BITS + I4_BITS); (8, I4_BITS); (12, 0)],
                  D2_BITS + I2_BITS + I4_BITS, OP_BITS + D2_BITS + I2_BITS + I4_BITS)
  | 0x0a => Some ([(7, D2_BITS + D4_BITS); (1, D4_BITS); (5, 0)],
                  I2_BITS + D2_BITS + D4_BITS, OP_BITS + I2_BITS + D2_BITS + D4_BITS)
  | 0x0b => Some ([(7, D4_BITS + I2_BITS); (14, I2_BITS); (10, 0)],
                  I2_BITS + D4_BITS + I2_BITS, OP_BITS + I2_BITS + D4_BITS + I2_BITS)
  | 0x0c => Some ([(7, D2_BITS + I2_BITS + D2_BITS); (1, I2_BITS + D2_BITS); (9, D2_BITS); (3, 0)],
                  I2_BITS + D2_BITS + I2_BITS + D2_BITS, OP_BITS + I2_BITS + D2_BITS + I2_BITS + D2_BITS)
  | 0x0d => Some ([(7, D2_BITS + I2_BITS + I2_BITS); (1, I2_BITS + I2_BITS); (9, I2_BITS); (10, 0)],
                  I2_BITS + D2_BITS + I2_BITS + I2_BITS, OP_BITS + I2_BITS + D2_BITS + I2_BITS + I2_BITS)
  | 0x0e => Some ([(7, D2_BITS + I4_BITS); (1, I4_BITS); (12, 0)],
                  I2_BITS + D2_BITS + I4_BITS, OP_BITS + I2_BITS + D2_BITS + I4_BITS)
  | 0x0f => Some ([(7, I2_BITS + D4_BITS); (8, D4_BITS); (5, 0)],
                  I2_BITS + I2_BITS + D4_BITS, OP_BITS + I2_BITS + I2_BITS + D4_BITS)
  | 0x10 => Some ([(7, I2_BITS + D2_BITS + I2_BITS); (8, D2_BITS + I2_BITS); (2, I2_BITS); (10, 0)],
                  I2_BITS + I2_BITS + D2_BITS + I2_BITS, OP_BITS + I2_BITS + I2_BITS + D2_BITS + I2_BITS)
  | 0x11 => Some ([(7, I2_BITS + I2_BITS + D2_BITS); (8, I2_BITS + D2_BITS); (9, D2_BITS); (3, 0)],
                  I2_BITS + I2_BITS + I2_BITS + D2_BITS, OP_BITS + I2_BITS + I2_BITS + I2_BITS + D2_BITS)
  | 0x12 => Some ([(7, I2_BITS + I2_BITS + I2_BITS); (8, I2_BITS + I2_BITS); (9, I2_BITS); (10, 0)],
                  I2_BITS + I2_BITS + I2_BITS + I2_BITS, OP_BITS + I2_BITS + I2_BITS + I2_BITS + I2_BITS)
  | 0x13 => Some ([(7, I2_BITS + I4_BITS); (8, I4_BITS); (12, 0)],
                  I2_BITS + I2_BITS + I4_BITS, OP_BITS + I2_BITS + I2_BITS + I4_BITS)
  | 0x14 => Some ([(11, D4_BITS); (5, 0)],
                  I4_BITS + D4_BITS, OP_BITS + I4_BITS + D4_BITS)
  | 0x15 => Some ([(11, D2_BITS + I2_BITS); (2, I2_BITS); (10, 0)],
                  I4_BITS + D2_BITS + I2_BITS, OP_BITS + I4_BITS + D2_BITS + I2_BITS)
  | 0x16 => Some ([(11, I2_BITS + D2_BITS); (9, D2_BITS); (3, 0)],
                  I4_BITS + I2_BITS + D2_BITS, OP_BITS + I4_BITS + D2_BITS + I2_BITS)
  | 0x17 => Some ([(11, I2_BITS + I2_BITS); (9, I2_BITS); (10, 0)],
                  I4_BITS + I2_BITS + I2_BITS, OP_BITS + I4_BITS + I2_BITS + I2_BITS)
  | 0x18 => Some ([(11, I4_BITS); (12, 0)],
                  I4_BITS + I4_BITS, OP_BITS + I4_BITS + I4_BITS)
  | 0x19 => Some ([(13, 0)], I8_BITS, OP_BITS + I8_BITS)
  | _ => None
  end.

(** dataAndIndices[i] (0-6 data, 7-13 indices), and the direct read of 0x0b. *)
Definition oslot (inp : list Z) (pos : Z) (d ix : list Z) (i : Z) : outcome Z :=
  if i =? 14 then get_input32 e inp (pos + 2) else aget (d ++ ix) i.
(** The disjunction of the shifted terms onto [out]. (842_compress.cpp:148-369.) *)
Fixpoint or_terms (inp : list Z) (pos : Z) (d ix : list Z) (ts : list (Z * Z)) (out : Z) : outcome Z :=
  match ts with
  | [] => Done out
  | (i, sh) :: r =>
    v <- oslot inp pos d ix i ;;
    v <- shl64 v sh ;;
    or_terms inp pos d ix r (Z.lor out v)
  end.
(** 842_compress.cpp:148-369 and the switch 474-555: add_template.  An unknown
    template only prints a message. *)
Definition oadd_template (s : bitstream) (inp : list Z) (pos : Z) (d ix : list Z) (op : Z) : sres :=
  if op =? 0x00 then
    andthen (stream_write_bits s op OP_BITS) (fun s1 =>
      v <- aget (d ++ ix) 6 ;; stream_write_bits s1 v D8_BITS)
  else
    match add_template_terms op with
    | None => Done (true, s)
    | Some (ts, ksh, total) =>
      k <- shl64 op ksh ;;
      out <- or_terms inp pos d ix ts k ;;
      stream_write_bits s out total
    end.

(** 842_compress.cpp:371-387: add_repeat_template (r is a uint8_t, decremented),
    add_zeros_template, add_end_template. *)
Definition oadd_repeat_template (s : bitstream) (r : Z) : sres :=
  stream_write_bits s (Z.lor (Z.shiftl OP_REPEAT REPEAT_BITS) (u8 (r - 1))) (OP_BITS + REPEAT_BITS).
(** 842_compress.cpp:379-382. *)
Definition oadd_zeros_template (s : bitstream) : sres := stream_write_bits s OP_ZEROS OP_BITS.
(** 842_compress.cpp:384-387. *)
Definition oadd_end_template (s : bitstream) : sres := stream_write_bits s OP_END OP_BITS.

(** 842_compress.cpp:407-429: update_hashtables; [pos] is p->in - p->instart.
    The indices are below 512, so the conversions to int16_t are exact; the
    conversions of the data to the fifo element types are exact as well. *)
Definition oupdate_hashtables (st : ostate) (d : list Z) (pos : Z) : outcome ostate :=
  let i64 := Z.shiftr pos 3 mod Z.shiftl 1 I8_BITS in
  let i32 := Z.shiftr pos 2 mod Z.shiftl 1 I4_BITS in
  let i16 := Z.shiftr pos 1 mod Z.shiftl 1 I2_BITS in
  let h := o_hashes st in
  f16 <- fset (o_f16 st) i16 (nth 0 d 0) ;;
  f16 <- fset f16 (i16 + 1) (nth 1 d 0) ;;
  f16 <- fset f16 (i16 + 2) (nth 2 d 0) ;;
  f16 <- fset f16 (i16 + 3) (nth 3 d 0) ;;
  f32 <- fset (o_f32 st) i32 (nth 4 d 0) ;;
  f32 <- fset f32 (i32 + 1) (nth 5 d 0) ;;
  f64 <- fset (o_f64 st) i64 (nth 6 d 0) ;;
  t16 <- aset (o_t16 st) (nth 0 h 0) i16 ;;
  t16 <- aset t16 (nth 1 h 0) (i16 + 1) ;;
  t16 <- aset t16 (nth 2 h 0) (i16 + 2) ;;
  t16 <- aset t16 (nth 3 h 0) (i16 + 3) ;;
  t32 <- aset (o_t32 st) (nth 4 h 0) i32 ;;
  t32 <- aset t32 (nth 5 h 0) (i32 + 1) ;;
  t64 <- aset (o_t64 st) (nth 6 h 0) i64 ;;
  Done (mkO h t16 t32 t64 f16 f32 f64).

(** 842_compress.cpp:434-557: process_next.  Returns the stream result and the
    state with the new hashes. *)
Definition set_hashes (st : ostate) (h : list Z) : ostate :=
  mkO h (o_t16 st) (o_t32 st) (o_t64 st) (o_f16 st) (o_f32 st) (o_f64 st).
(** 842_compress.cpp:434-557: process_next. *)
Definition oprocess_next (s : bitstream) (inp : list Z) (pos : Z) (st : ostate) (d : list Z)
  : outcome (bool * bitstream * ostate) :=
  let st := set_hashes st (ohash d) in
  '(v, ix) <- ofind_index st d ;;
  op <- get_template (template_keys v) ;;
  '(ok, s') <- oadd_template s inp pos d ix op ;;
  Done (ok, s', st).

(** 842_compress.cpp:609-649: the main loop.  Result: (no exception, stream,
    repeat_count). *)
Fixpoint ocomp_loop (fuel : nat) (inp : list Z) (s : bitstream) (st : ostate) (pos ilen last rc : Z)
  : outcome (bool * bitstream * Z) :=
  if ilen >? 7 then
    match fuel with
    | O => NoFuel
    | S f =>
      next <- load64 e inp pos ;;
      d <- oget_next_data inp pos ;;
      let repeat (s : bitstream) (st : ostate) (rc : Z) :=
        st' <- oupdate_hashtables st d pos ;;
        ocomp_loop f inp s st' (pos + 8) (ilen - 8) next rc in
      let emit (s : bitstream) :=
        if next =? 0 then
          '(ok, s') <- oadd_zeros_template s ;;
          if ok : bool then repeat s' st 0 else Done (false, s', 0)
        else
          '(ok, s', st') <- oprocess_next s inp pos st d ;;
          if ok : bool then repeat s' st' 0 else Done (false, s', 0) in
      let rc1 := if next =? last then u8 (rc + 1) else rc in
      if (next =? last) && (rc1 <=? REPEAT_BITS_MAX) then repeat s st rc1
      else if negb (rc1 =? 0) then
        '(ok, s') <- oadd_repeat_template s rc1 ;;
        if ok : bool then (if next =? last then repeat s' st 0 else emit s')
        else Done (false, s', 0)
      else emit s
    end
  else Done (true, s, rc).

(** 842_compress.cpp:588-595: initial tables. *)
Definition ostate_init : ostate :=
  mkO (List.repeat 0 7)
      (List.repeat NO_ENTRY (Z.to_nat (Z.shiftl 1 DICT16_BITS)))
      (List.repeat NO_ENTRY (Z.to_nat (Z.shiftl 1 DICT32_BITS)))
      (List.repeat NO_ENTRY (Z.to_nat (Z.shiftl 1 DICT64_BITS)))
      (List.repeat None (Z.to_nat (Z.shiftl 1 I2_BITS)))
      (List.repeat None (Z.to_nat (Z.shiftl 1 I4_BITS)))
      (List.repeat None (Z.to_nat (Z.shiftl 1 I8_BITS))).

(** 842_compress.cpp:569-682: optsw842_compress(in, ilen, out, &olen).  [iaddr] and
    [oaddr] are the addresses of [in] and [out], [inp] the [ilen] input bytes,
    [out] the memory at the output pointer, [olen] the initial *olen.  Result:
    (return value, final *olen, final out memory).  malloc succeeds; [in] and
    [out] do not overlap; messages on stderr are not modelled. *)
Definition optsw842_compress (iaddr oaddr : Z) (inp out : list Z) (olen : Z) : outcome (Z * Z * list Z) :=
  let ilen := lenZ inp in
  if negb (ilen mod 8 =? 0) then Done (- EINVAL, olen, out)
  else if negb (iaddr mod 8 =? 0) || negb (oaddr mod 8 =? 0)
  then sw842_compress e iaddr inp out olen
  else
    let s0 := stream_open out olen in
    first <- load64 e inp 0 ;;
    let last := u64 (Z.lnot first) in
    '(ok, s1, rc) <- ocomp_loop (Z.to_nat (ilen / 8)) inp s0 ostate_init 0 ilen last 0 ;;
    '(ok, s) <-
      (if ok : bool then
         andthen (if negb (rc =? 0) then oadd_repeat_template s1 rc else Done (true, s1)) (fun s2 =>
         andthen (oadd_end_template s2) (fun s3 =>
           crc <- crc32_be e iaddr 0 inp ilen ;;
           andthen (stream_write_bits s3 crc CRC_BITS) stream_flush))
       else Done (false, s1)) ;;
    if ok : bool then Done (0, stream_size s, s_mem s) else Done (- ENOSPC, 0, s_mem s).
End Endian.
