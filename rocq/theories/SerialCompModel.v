(** Model of /repo/src/serial/842_compress.c (sw842_compress). *)
From Coq Require Import ZArith List Bool.
From Verif Require Import CBase CrcModel.
Import ListNotations.
Open Scope Z_scope.

(** src/common/842.h:76-118: format constants. *)
Definition OP_REPEAT : Z := 0x1B.
(** src/common/842.h:77. *)
Definition OP_ZEROS : Z := 0x1C.
(** src/common/842.h:78. *)
Definition OP_END : Z := 0x1E.
(** src/common/842.h:84. *)
Definition OP_SHORT_DATA : Z := 0x1D.
(** src/common/842.h:87. *)
Definition OP_BITS : Z := 5.
(** src/common/842.h:88. *)
Definition REPEAT_BITS : Z := 6.
(** src/common/842.h:89. *)
Definition SHORT_DATA_BITS : Z := 3.
(** src/common/842.h:90. *)
Definition I2_BITS : Z := 8.
(** src/common/842.h:91. *)
Definition I4_BITS : Z := 9.
(** src/common/842.h:92. *)
Definition I8_BITS : Z := 8.
(** src/common/842.h:93. *)
Definition CRC_BITS : Z := 32.
(** src/common/842.h:95. *)
Definition REPEAT_BITS_MAX : Z := 0x3f.
(** src/common/842.h:96. *)
Definition SHORT_DATA_BITS_MAX : Z := 0x7.
(** src/common/842.h:99. *)
Definition OP_ACTION : Z := 0x70.
(** src/common/842.h:100. *)
Definition OP_ACTION_INDEX : Z := 0x10.
(** src/common/842.h:101. *)
Definition OP_ACTION_DATA : Z := 0x20.
(** src/common/842.h:102. *)
Definition OP_ACTION_NOOP : Z := 0x40.
(** src/common/842.h:103. *)
Definition OP_AMOUNT : Z := 0x0f.
(** src/common/842.h:104. *)
Definition OP_AMOUNT_0 : Z := 0x00.
(** src/common/842.h:105. *)
Definition OP_AMOUNT_2 : Z := 0x02.
(** src/common/842.h:106. *)
Definition OP_AMOUNT_4 : Z := 0x04.
(** src/common/842.h:107. *)
Definition OP_AMOUNT_8 : Z := 0x08.
(** src/common/842.h:109. *)
Definition D2 : Z := Z.lor OP_ACTION_DATA OP_AMOUNT_2.
(** src/common/842.h:110. *)
Definition D4 : Z := Z.lor OP_ACTION_DATA OP_AMOUNT_4.
(** src/common/842.h:111. *)
Definition D8 : Z := Z.lor OP_ACTION_DATA OP_AMOUNT_8.
(** src/common/842.h:112. *)
Definition I2 : Z := Z.lor OP_ACTION_INDEX OP_AMOUNT_2.
(** src/common/842.h:113. *)
Definition I4 : Z := Z.lor OP_ACTION_INDEX OP_AMOUNT_4.
(** src/common/842.h:114. *)
Definition I8 : Z := Z.lor OP_ACTION_INDEX OP_AMOUNT_8.
(** src/common/842.h:115. *)
Definition N0 : Z := Z.lor OP_ACTION_NOOP OP_AMOUNT_0.
(** src/common/842.h:118. *)
Definition OPS_MAX : Z := 0x1a.

(** 842_compress.c:103-130: comp_ops. *)
Definition comp_ops : list (list Z) := [
  [ I8; N0; N0; N0; 0x19 ];
  [ I4; I4; N0; N0; 0x18 ];
  [ I4; I2; I2; N0; 0x17 ];
  [ I2; I2; I4; N0; 0x13 ];
  [ I2; I2; I2; I2; 0x12 ];
  [ I4; I2; D2; N0; 0x16 ];
  [ I4; D2; I2; N0; 0x15 ];
  [ I2; D2; I4; N0; 0x0e ];
  [ D2; I2; I4; N0; 0x09 ];
  [ I2; I2; I2; D2; 0x11 ];
  [ I2; I2; D2; I2; 0x10 ];
  [ I2; D2; I2; I2; 0x0d ];
  [ D2; I2; I2; I2; 0x08 ];
  [ I4; D4; N0; N0; 0x14 ];
  [ D4; I4; N0; N0; 0x04 ];
  [ I2; I2; D4; N0; 0x0f ];
  [ I2; D2; I2; D2; 0x0c ];
  [ I2; D4; I2; N0; 0x0b ];
  [ D2; I2; I2; D2; 0x07 ];
  [ D2; I2; D2; I2; 0x06 ];
  [ D4; I2; I2; N0; 0x03 ];
  [ I2; D2; D4; N0; 0x0a ];
  [ D2; I2; D4; N0; 0x05 ];
  [ D4; I2; D2; N0; 0x02 ];
  [ D4; D2; I2; N0; 0x01 ];
  [ D8; N0; N0; N0; 0x00 ] ].

(** 842_compress.c:132. *)
Definition INDEX_NOT_FOUND : Z := -1.
(** 842_compress.c:133. *)
Definition INDEX_NOT_CHECKED : Z := -2.

(** The hash tables p->htableN (842_compress.c:32-65, uthash + utlist): a finite
    map from data values to the list of node indices holding that value.  The
    entry list models the uthash table, the inner list the utlist DL list
    (head first). *)
Definition htable := list (Z * list Z).
(** HASH_FIND. (842_compress.c:149, 165, 186.) *)
Fixpoint hash_find (h : htable) (k : Z) : option (list Z) :=
  match h with
  | [] => None
  | (k', l) :: r => if k' =? k then Some l else hash_find r k
  end.
(** HASH_DEL of the entry with key [k]. (842_compress.c:176.) *)
Fixpoint hash_del (h : htable) (k : Z) : htable :=
  match h with
  | [] => []
  | (k', l) :: r => if k' =? k then hash_del r k else (k', l) :: hash_del r k
  end.
(** assignment to h->head of the entry with key [k]. (842_compress.c:171, 198.) *)
Fixpoint hash_upd (h : htable) (k : Z) (l : list Z) : htable :=
  match h with
  | [] => []
  | (k', l') :: r => if k' =? k then (k', l) :: hash_upd r k l else (k', l') :: hash_upd r k l
  end.
(** DL_SEARCH_SCALAR followed by DL_DELETE: removes the first match. (842_compress.c:169-171.) *)
Fixpoint dl_remove (i : Z) (l : list Z) : list Z :=
  match l with
  | [] => []
  | j :: r => if j =? i then r else j :: dl_remove i r
  end.
(** DL_SEARCH_SCALAR: whether there is a match. (842_compress.c:169-170.) *)
Definition dl_mem (i : Z) (l : list Z) : bool := existsb (Z.eqb i) l.

(** One dictionary (htableN + nodeN) of struct sw842_param. *)
Record dict := mkDict { d_node : list Z; d_ht : htable }.

(** 842_compress.c:159-199: replace_hash(p, b, i, d) with [v = p->data##b[d]] and
    [idx = i + d].  Undef if the node index is outside the array. *)
Definition replace_hash (t : dict) (idx v : Z) : outcome dict :=
  old <- aget (d_node t) idx ;;
  let ht1 :=
    match hash_find (d_ht t) old with
    | None => d_ht t
    | Some l =>
      if dl_mem idx l then
        let l' := dl_remove idx l in
        if lenZ l' =? 0 then hash_del (d_ht t) old else hash_upd (d_ht t) old l'
      else d_ht t
    end in
  node' <- aset (d_node t) idx v ;;
  let ht2 := match hash_find ht1 v with None => (v, []) :: ht1 | Some _ => ht1 end in
  let ht3 := match hash_find ht2 v with
             | None => ht2
             | Some l => hash_upd ht2 v (l ++ [idx])
             end in
  Done (mkDict node' ht3).

(** The output side of struct sw842_param (842_compress.c:67-86: out, olen,
    bit).  [w_mem] is the memory behind the output pointer passed by the
    caller, [w_pos] the offset p->out - out. *)
Record writer := mkWriter { w_mem : list Z; w_pos : Z; w_olen : Z; w_bit : Z }.

(** 842_compress.c:218: bmask. *)
Definition bmask : list Z := [ 0x00; 0x80; 0xc0; 0xe0; 0xf0; 0xf8; 0xfc; 0xfe ].

Section Endian.
Variable e : endian.

(** 842_compress.c:262-280: the store of add_bits. *)
Definition add_bits_store (m : list Z) (pos b bits s d0 : Z) : outcome (list Z) :=
  byte <- load8 m pos ;;
  mask <- aget bmask b ;;
  let o := Z.land byte mask in
  let d := u64 (Z.shiftl d0 s) in
  if bits <=? 8 then store8 m pos (u8 (Z.lor o d))
  else if bits <=? 16 then
    store16 e m pos (swap_native_to_be16 e (u16 (Z.lor (Z.shiftl o 8) d)))
  else if bits <=? 24 then
    store32 e m pos (swap_native_to_be32 e (u32 (Z.lor (Z.shiftl o 24) (u64 (Z.shiftl d 8)))))
  else if bits <=? 32 then
    store32 e m pos (swap_native_to_be32 e (u32 (Z.lor (Z.shiftl o 24) d)))
  else if bits <=? 40 then
    store64 e m pos (swap_native_to_be64 e (u64 (Z.lor (Z.shiftl o 56) (Z.shiftl d 24))))
  else if bits <=? 48 then
    store64 e m pos (swap_native_to_be64 e (u64 (Z.lor (Z.shiftl o 56) (Z.shiftl d 16))))
  else if bits <=? 56 then
    store64 e m pos (swap_native_to_be64 e (u64 (Z.lor (Z.shiftl o 56) (Z.shiftl d 8))))
  else
    store64 e m pos (swap_native_to_be64 e (u64 (Z.lor (Z.shiftl o 56) d))).

(** 842_compress.c:222-291: __split_add_bits and add_bits (mutually recursive in
    C).  Returns the C return value and the new writer. *)
Fixpoint add_bits_f (fuel : nat) (w : writer) (d n : Z) : outcome (Z * writer) :=
  match fuel with
  | O => NoFuel
  | S f =>
    let split_add_bits (s : Z) :=
      if n <=? s then Done (- EINVAL, w)
      else
        '(ret, w1) <- add_bits_f f w (Z.shiftr d s) (n - s) ;;
        if negb (ret =? 0) then Done (ret, w1)
        else add_bits_f f w1 (Z.land d (genmask_ull (s - 1) 0)) s in
    let b := w_bit w in
    let bits := b + n in
    let s := round_up bits 8 - bits in
    if n >? 64 then Done (- EINVAL, w)
    else if bits >? 64 then split_add_bits 32
    else if (w_olen w <? 8) && (bits >? 32) && (bits <=? 56) then split_add_bits 16
    else if (w_olen w <? 4) && (bits >? 16) && (bits <=? 24) then split_add_bits 8
    else if div_round_up bits 8 >? w_olen w then Done (- ENOSPC, w)
    else
      m <- add_bits_store (w_mem w) (w_pos w) b bits s d ;;
      let bit' := w_bit w + n in
      if bit' >? 7
      then Done (0, mkWriter m (w_pos w + bit' / 8) (w_olen w - bit' / 8) (bit' mod 8))
      else Done (0, mkWriter m (w_pos w) (w_olen w) bit')
  end.
(** 842_compress.c:235-291: add_bits; every split halves the number of bits, so the fuel suffices. *)
Definition add_bits (w : writer) (d n : Z) : outcome (Z * writer) := add_bits_f 8 w d n.

(** 842_compress.c:135-136: get_input_data(p, o, b). *)
Definition get_input16 (inp : list Z) (i : Z) : outcome Z :=
  v <- load16 e inp i ;; Done (swap_be_to_native16 e v).
(** 842_compress.c:135-136, for 32 bits. *)
Definition get_input32 (inp : list Z) (i : Z) : outcome Z :=
  v <- load32 e inp i ;; Done (swap_be_to_native32 e v).
(** 842_compress.c:135-136, for 64 bits. *)
Definition get_input64 (inp : list Z) (i : Z) : outcome Z :=
  v <- load64 e inp i ;; Done (swap_be_to_native64 e v).

(** The dataN fields of struct sw842_param. *)
Record data := mkData { data8 : Z; data4 : list Z; data2 : list Z }.

(** 842_compress.c:469-478: get_next_data. *)
Definition get_next_data (inp : list Z) (pos : Z) : outcome data :=
  d8 <- get_input64 inp pos ;;
  d40 <- get_input32 inp pos ;;
  d41 <- get_input32 inp (pos + 4) ;;
  d20 <- get_input16 inp pos ;;
  d21 <- get_input16 inp (pos + 2) ;;
  d22 <- get_input16 inp (pos + 4) ;;
  d23 <- get_input16 inp (pos + 6) ;;
  Done (mkData d8 [d40; d41] [d20; d21; d22; d23]).

(** The indexN fields of struct sw842_param. *)
Record idx := mkIdx { index8 : list Z; index4 : list Z; index2 : list Z }.

(** The three dictionaries. (842_compress.c:80-85.) *)
Record dicts := mkDicts { dict8 : dict; dict4 : dict; dict2 : dict }.

(** 842_compress.c:143-153: find_index, on one index array: the new value of
    index##b[n]. *)
Definition find_index (t : dict) (v : Z) : Z :=
  match hash_find (d_ht t) v with
  | Some (i :: _) => i
  | _ => INDEX_NOT_FOUND
  end.

(** 842_compress.c:155-157: check_index on the array [a] (index##b), [dv]
    (data##b) at [n]: returns the truth value and the new array. *)
Definition check_index (t : dict) (dv a : list Z) (n : Z) : outcome (bool * list Z) :=
  i <- aget a n ;;
  if i =? INDEX_NOT_CHECKED then
    v <- aget dv n ;;
    let i' := find_index t v in
    a' <- aset a n i' ;;
    Done (i' >=? 0, a')
  else Done (i >=? 0, a).

(** 842_compress.c:441-467: check_template; the loop over the first four columns
    [ts] of the row with running offset [b]. *)
Fixpoint check_ops (ds : dicts) (dt : data) (ix : idx) (ts : list Z) (b : Z) : outcome (bool * idx) :=
  match ts with
  | [] => Done (true, ix)
  | t :: r =>
    if negb (Z.land t OP_ACTION_INDEX =? 0) then
      '(m, ix') <-
        (if negb (Z.land t OP_AMOUNT_2 =? 0) then
           '(m, a) <- check_index (dict2 ds) (data2 dt) (index2 ix) (Z.shiftr b 1) ;;
           Done (Some m, mkIdx (index8 ix) (index4 ix) a)
         else if negb (Z.land t OP_AMOUNT_4 =? 0) then
           '(m, a) <- check_index (dict4 ds) (data4 dt) (index4 ix) (Z.shiftr b 2) ;;
           Done (Some m, mkIdx (index8 ix) a (index2 ix))
         else if negb (Z.land t OP_AMOUNT_8 =? 0) then
           '(m, a) <- check_index (dict8 ds) [data8 dt] (index8 ix) 0 ;;
           Done (Some m, mkIdx a (index4 ix) (index2 ix))
         else Done (None, ix)) ;;
      match m with
      | Some true => check_ops ds dt ix' r (b + Z.land t OP_AMOUNT)
      | _ => Done (false, ix')
      end
    else check_ops ds dt ix r (b + Z.land t OP_AMOUNT)
  end.
(** 842_compress.c:441-467: check_template. *)
Definition check_template (ds : dicts) (dt : data) (ix : idx) (c : Z) : outcome (bool * idx) :=
  if c >=? OPS_MAX then Done (false, ix)
  else check_ops ds dt ix (firstn 4 (nth (Z.to_nat c) comp_ops [])) 0.

(** 842_compress.c:310-367: the loop of add_template over the columns [ts] of the
    row, running offset [b].  Returns C ret, writer and final [b]; an invalid
    template returns -EINVAL. *)
Fixpoint add_ops (w : writer) (inp : list Z) (pos : Z) (dt : data) (ix : idx) (ts : list Z) (b : Z)
  : outcome (Z * writer * Z) :=
  match ts with
  | [] => Done (0, w, b)
  | t :: r =>
    let amount := Z.land t OP_AMOUNT in
    let is_index := negb (Z.land t OP_ACTION_INDEX =? 0) in
    let is_data := negb (Z.land t OP_ACTION_DATA =? 0) in
    '(inv, ret, w') <-
      (if amount =? OP_AMOUNT_8 then
         if negb (b =? 0) then Done (true, 0, w)
         else if is_index then
           v <- aget (index8 ix) 0 ;;
           '(ret, w') <- add_bits w (u64 v) I8_BITS ;; Done (false, ret, w')
         else if is_data then
           '(ret, w') <- add_bits w (data8 dt) 64 ;; Done (false, ret, w')
         else Done (true, 0, w)
       else if amount =? OP_AMOUNT_4 then
         if (b =? 2) && is_data then
           v <- get_input32 inp (pos + 2) ;;
           '(ret, w') <- add_bits w v 32 ;; Done (false, ret, w')
         else if negb (b =? 0) && negb (b =? 4) then Done (true, 0, w)
         else if is_index then
           v <- aget (index4 ix) (Z.shiftr b 2) ;;
           '(ret, w') <- add_bits w (u64 v) I4_BITS ;; Done (false, ret, w')
         else if is_data then
           v <- aget (data4 dt) (Z.shiftr b 2) ;;
           '(ret, w') <- add_bits w v 32 ;; Done (false, ret, w')
         else Done (true, 0, w)
       else if amount =? OP_AMOUNT_2 then
         let inv := negb (b =? 0) && negb (b =? 2) && negb (b =? 4) && negb (b =? 6) in
         if is_index then
           v <- aget (index2 ix) (Z.shiftr b 1) ;;
           '(ret, w') <- add_bits w (u64 v) I2_BITS ;; Done (inv, ret, w')
         else if is_data then
           v <- aget (data2 dt) (Z.shiftr b 1) ;;
           '(ret, w') <- add_bits w v 16 ;; Done (inv, ret, w')
         else Done (true, 0, w)
       else if amount =? OP_AMOUNT_0 then
         Done (negb (b =? 8) || (Z.land t OP_ACTION_NOOP =? 0), 0, w)
       else Done (true, 0, w)) ;;
    if negb (ret =? 0) then Done (ret, w', b)
    else if inv then Done (- EINVAL, w', b)
    else add_ops w' inp pos dt ix r (b + amount)
  end.

(** 842_compress.c:293-376: add_template. *)
Definition add_template (w : writer) (inp : list Z) (pos : Z) (dt : data) (ix : idx) (c : Z)
  : outcome (Z * writer) :=
  if c >=? OPS_MAX then Done (- EINVAL, w)
  else
    let t := nth (Z.to_nat c) comp_ops [] in
    '(ret, w1) <- add_bits w (nth 4 t 0) OP_BITS ;;
    if negb (ret =? 0) then Done (ret, w1)
    else
      '(ret, w2, b) <- add_ops w1 inp pos dt ix (firstn 4 t) 0 ;;
      if negb (ret =? 0) then Done (ret, w2)
      else if negb (b =? 8) then Done (- EINVAL, w2)
      else Done (0, w2).

(** 842_compress.c:378-395: add_repeat_template. *)
Definition add_repeat_template (w : writer) (r : Z) : outcome (Z * writer) :=
  if r =? 0 then Done (- EINVAL, w)
  else if r - 1 >? REPEAT_BITS_MAX then Done (- EINVAL, w)
  else
    '(ret, w1) <- add_bits w OP_REPEAT OP_BITS ;;
    if negb (ret =? 0) then Done (ret, w1)
    else
      '(ret, w2) <- add_bits w1 (r - 1) REPEAT_BITS ;;
      if negb (ret =? 0) then Done (ret, w2) else Done (0, w2).

(** 842_compress.c:412-416: loop of add_short_data_template over the [k] bytes
    from [pos]. *)
Fixpoint add_short_bytes (k : nat) (w : writer) (inp : list Z) (pos : Z) : outcome (Z * writer) :=
  match k with
  | O => Done (0, w)
  | S k' =>
    v <- load8 inp pos ;;
    '(ret, w1) <- add_bits w v 8 ;;
    if negb (ret =? 0) then Done (ret, w1)
    else add_short_bytes k' w1 inp (pos + 1)
  end.
(** 842_compress.c:397-419: add_short_data_template. *)
Definition add_short_data_template (w : writer) (inp : list Z) (pos b : Z) : outcome (Z * writer) :=
  if (b =? 0) || (b >? SHORT_DATA_BITS_MAX) then Done (- EINVAL, w)
  else
    '(ret, w1) <- add_bits w OP_SHORT_DATA OP_BITS ;;
    if negb (ret =? 0) then Done (ret, w1)
    else
      '(ret, w2) <- add_bits w1 b SHORT_DATA_BITS ;;
      if negb (ret =? 0) then Done (ret, w2)
      else add_short_bytes (Z.to_nat b) w2 inp pos.

(** 842_compress.c:421-439: add_zeros_template, add_end_template. *)
Definition add_zeros_template (w : writer) := add_bits w OP_ZEROS OP_BITS.
(** 842_compress.c:431-439: add_end_template. *)
Definition add_end_template (w : writer) := add_bits w OP_END OP_BITS.

(** 842_compress.c:484-498: update_hashtables; [pos] is p->in - p->instart. *)
Definition update_hashtables (ds : dicts) (dt : data) (pos : Z) : outcome dicts :=
  let n8 := Z.shiftr pos 3 mod Z.shiftl 1 I8_BITS in
  let n4 := Z.shiftr pos 2 mod Z.shiftl 1 I4_BITS in
  let n2 := Z.shiftr pos 1 mod Z.shiftl 1 I2_BITS in
  t8 <- replace_hash (dict8 ds) (n8 + 0) (data8 dt) ;;
  t4 <- (v <- aget (data4 dt) 0 ;; replace_hash (dict4 ds) (n4 + 0) v) ;;
  t4 <- (v <- aget (data4 dt) 1 ;; replace_hash t4 (n4 + 1) v) ;;
  t2 <- (v <- aget (data2 dt) 0 ;; replace_hash (dict2 ds) (n2 + 0) v) ;;
  t2 <- (v <- aget (data2 dt) 1 ;; replace_hash t2 (n2 + 1) v) ;;
  t2 <- (v <- aget (data2 dt) 2 ;; replace_hash t2 (n2 + 2) v) ;;
  t2 <- (v <- aget (data2 dt) 3 ;; replace_hash t2 (n2 + 3) v) ;;
  Done (mkDicts t8 t4 t2).

(** 842_compress.c:515-519: search of the first matching template, starting at
    row [i], at most [k] rows; the result is the value of [i] after the loop. *)
Fixpoint find_template (k : nat) (ds : dicts) (dt : data) (ix : idx) (i : Z) : outcome (Z * idx) :=
  match k with
  | O => Done (i, ix)
  | S k' =>
    '(m, ix') <- check_template ds dt ix i ;;
    if m : bool then Done (i, ix') else find_template k' ds dt ix' (i + 1)
  end.

(** 842_compress.c:503-525: process_next. *)
Definition process_next (w : writer) (inp : list Z) (pos : Z) (ds : dicts) (dt : data)
  : outcome (Z * writer) :=
  let ix0 := mkIdx [INDEX_NOT_CHECKED] [INDEX_NOT_CHECKED; INDEX_NOT_CHECKED]
                   [INDEX_NOT_CHECKED; INDEX_NOT_CHECKED; INDEX_NOT_CHECKED; INDEX_NOT_CHECKED] in
  '(i, ix) <- find_template (Z.to_nat (OPS_MAX - 1)) ds dt ix0 0 ;;
  add_template w inp pos dt ix i.

(** 842_compress.c:582-619: the main loop.  State: writer, dictionaries, position
    in the input, remaining length, [last], [repeat_count].  The result carries
    a flag saying whether the loop was left through "goto cleanup" and the
    return value in that case.  The return value of add_repeat_template at line
    600 is ignored, as in the code. *)
Fixpoint comp_loop (fuel : nat) (inp : list Z) (w : writer) (ds : dicts) (pos ilen last rc : Z)
  : outcome (option Z * writer * Z * Z * Z) :=
  if ilen >? 7 then
    match fuel with
    | O => NoFuel
    | S f =>
      next <- load64 e inp pos ;;
      dt <- get_next_data inp pos ;;
      let repeat (w : writer) (rc : Z) :=
        ds' <- update_hashtables ds dt pos ;;
        comp_loop f inp w ds' (pos + 8) (ilen - 8) next rc in
      let emit (w : writer) :=
        '(ret, w') <- (if next =? 0 then add_zeros_template w else process_next w inp pos ds dt) ;;
        if negb (ret =? 0) then Done (Some ret, w', pos, ilen, 0) else repeat w' 0 in
      let rc1 := if next =? last then u8 (rc + 1) else rc in
      if (next =? last) && (rc1 <=? REPEAT_BITS_MAX) then repeat w rc1
      else if negb (rc1 =? 0) then
        '(_, w') <- add_repeat_template w rc1 ;;
        if next =? last then repeat w' 0 else emit w'
      else emit w
    end
  else Done (None, w, pos, ilen, rc).

(** 842_compress.c:654-677: byte-align, pad to a multiple of 8, report the size.
    [total] is the initial capacity.  Returns (ret, *olen, out memory). *)
Definition comp_finish (total : Z) (w : writer) : outcome (Z * Z * list Z) :=
  let w1 := if negb (w_bit w =? 0) then mkWriter (w_mem w) (w_pos w + 1) (w_olen w - 1) 0 else w in
  let pad := (8 - ((total - w_olen w1) mod 8)) mod 8 in
  w2 <- (if negb (pad =? 0) then
           if pad >? w_olen w1 then Done None
           else m <- store_bytes (w_mem w1) (w_pos w1) (List.repeat 0 (Z.to_nat pad)) ;;
                Done (Some (mkWriter m (w_pos w1 + pad) (w_olen w1 - pad) (w_bit w1)))
         else Done (Some w1)) ;;
  match w2 with
  | None => Done (- ENOSPC, 0, w_mem w1)
  | Some w3 =>
    if total - w_olen w3 >? UINT_MAX then Done (- ENOSPC, 0, w_mem w3)
    else Done (0, total - w_olen w3, w_mem w3)
  end.

(** 842_compress.c:627-652: short data, end template, CRC. *)
Definition comp_tail (addr : Z) (inp : list Z) (total : Z) (w : writer) (pos ilen : Z)
  : outcome (Z * Z * list Z) :=
  '(ret, w1) <- (if ilen >? 0 then add_short_data_template w inp pos (u8 ilen) else Done (0, w)) ;;
  if negb (ret =? 0) then Done (ret, 0, w_mem w1)
  else
    '(ret, w2) <- add_end_template w1 ;;
    if negb (ret =? 0) then Done (ret, 0, w_mem w2)
    else
      crc <- crc32_be e addr 0 inp (lenZ inp) ;;
      '(ret, w3) <- add_bits w2 crc CRC_BITS ;;
      if negb (ret =? 0) then Done (ret, 0, w_mem w3)
      else comp_finish total w3.

(** 842_compress.c:548-554: initial dictionaries. *)
Definition init_dict (n : nat) : dict := mkDict (List.repeat 0 n) [].
(** 842_compress.c:548-554: the three dictionaries. *)
Definition init_dicts : dicts :=
  mkDicts (init_dict (Z.to_nat (2 ^ I8_BITS))) (init_dict (Z.to_nat (2 ^ I4_BITS)))
          (init_dict (Z.to_nat (2 ^ I2_BITS))).

(** 842_compress.c:537-689: sw842_compress(in, ilen, out, &olen).
    [addr] is the address of [in] (its alignment is visible to crc32_be), [inp]
    the [ilen] input bytes, [out] the memory at the output pointer, [olen] the
    initial *olen.  Result: (return value, final *olen, final out memory).
    Simplifications: malloc succeeds; SW842_STRICT is 0 as in the source (line
    101) so the test at line 567 is dead; [in] and [out] do not overlap;
    destroy_hashtable (lines 201-216) has no observable effect. *)
Definition sw842_compress (addr : Z) (inp out : list Z) (olen : Z) : outcome (Z * Z * list Z) :=
  let ilen := lenZ inp in
  let w0 := mkWriter out 0 olen 0 in
  let total := olen in
  if ilen <? 8 then comp_tail addr inp total w0 0 ilen
  else
    first <- load64 e inp 0 ;;
    let last := u64 (Z.lnot first) in
    '(early, w1, pos, rem, rc) <- comp_loop (Z.to_nat (ilen / 8)) inp w0 init_dicts 0 ilen last 0 ;;
    match early with
    | Some ret => Done (ret, 0, w_mem w1)
    | None =>
      '(ret, w2) <- (if negb (rc =? 0) then add_repeat_template w1 rc else Done (0, w1)) ;;
      if negb (ret =? 0) then Done (ret, 0, w_mem w2)
      else comp_tail addr inp total w2 pos rem
    end.
End Endian.
