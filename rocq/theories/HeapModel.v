(** Model of the memory that /repo/src/serial/842_compress.c (sw842_compress) and /repo/src/serial_optimized/842_compress.cpp (optsw842_compress) allocate:
    the functions of SerialCompModel.v once more, with the hash tables as blocks on a heap that are linked by pointers.
    The macros of utlist.h and uthash.h (src/serial/uthash, a submodule that is not in /repo) are modelled as their documentation says. *)
From Coq Require Import ZArith List Bool.
From Verif Require Import CBase CrcModel SerialCompModel OptCompModel.
Import ListNotations.
Open Scope Z_scope.

(** The blocks on the heap: struct sw842_param (842_compress.c:67-86 and 842_compress.cpp; its fields are in the state of the functions below), struct bitstream (bitstream.cpp:18-24),
    the UT_hash_table of uthash (with its buckets, as one block of constant size: a simplification), struct hlist_nodeN (842_compress.c:39-43, 50-54, 61-65), struct nodeN_el (842_compress.c:34-37,
    45-48, 56-59) and all others, which belong to the rest of the program. *)
Inductive block := BParam | BStream | BTable | BNode (data head : Z) | BEl (index next prev : Z) | BOther (content : list Z).
(** The heap: the blocks that are allocated, by address. (No counterpart in /repo: the memory behind malloc and free.) *)
Definition heap := list (Z * block).

(** An access through the pointer [a]; NULL is 0. *)
Definition hget (h : heap) (a : Z) : outcome block :=
  if a =? 0 then Undef else match find (fun b => fst b =? a) h with Some b => Done (snd b) | None => Undef end.
(** An assignment to a block. (assignments through h and el, 842_compress.c:190-197.) *)
Definition hset (h : heap) (a : Z) (o : block) : outcome heap :=
  _ <- hget h a ;; Done (map (fun b => if fst b =? a then (a, o) else b) h).
(** free(a) for an [a] that is not NULL (the code never frees NULL). (842_compress.c:172, 177 and 208-214.) *)
Definition hfree (h : heap) (a : Z) : outcome heap :=
  _ <- hget h a ;; Done (filter (fun b => negb (fst b =? a)) h).

(** The members of struct hlist_nodeN. (842_compress.c:39-43, 50-54, 61-65.) *)
Definition get_node (h : heap) (a : Z) : outcome (Z * Z) := o <- hget h a ;; match o with BNode d x => Done (d, x) | _ => Undef end.
(** Assignment to its member head. (842_compress.c:171, 191, 198.) *)
Definition set_head (h : heap) (a x : Z) : outcome heap := '(d, _) <- get_node h a ;; hset h a (BNode d x).
(** The members of struct nodeN_el. (842_compress.c:34-37, 45-48, 56-59.) *)
Definition get_el (h : heap) (a : Z) : outcome (Z * Z * Z) := o <- hget h a ;; match o with BEl i n p => Done (i, n, p) | _ => Undef end.
(** Assignment to its member next. (842_compress.c:171, 198, in the macros of utlist.) *)
Definition set_next (h : heap) (a n : Z) : outcome heap := '(i, _, p) <- get_el h a ;; hset h a (BEl i n p).
(** Assignment to its member prev. (842_compress.c:171, 198, in the macros of utlist.) *)
Definition set_prev (h : heap) (a p : Z) : outcome heap := '(i, n, _) <- get_el h a ;; hset h a (BEl i n p).

Section Heap.
(** malloc: the address it returns (NULL, which is 0, if there is no memory), as a function of the blocks that are allocated and of their order in the list, and what is in the new
    memory. *)
Variable alloc : heap -> Z.
Variable junk : Z.

(** malloc, for a block of the kind [o]. (842_compress.c:188, 195.) *)
Definition hmalloc (h : heap) (o : block) : Z * heap := if alloc h =? 0 then (0, h) else (alloc h, (alloc h, o) :: h).

(** * utlist.h *)
(** DL_SEARCH_SCALAR(head, out, index, val): the element, NULL if there is none. (used in 842_compress.c:169.) *)
Fixpoint dl_search (fuel : nat) (h : heap) (el val : Z) : outcome Z :=
  match fuel with
  | O => NoFuel
  | S f => if el =? 0 then Done 0 else '(i, n, _) <- get_el h el ;; if i =? val then Done el else dl_search f h n val
  end.
(** DL_COUNT(head, el, counter). (used in 842_compress.c:174.) *)
Fixpoint dl_count (fuel : nat) (h : heap) (el : Z) : outcome Z :=
  match fuel with
  | O => NoFuel
  | S f => if el =? 0 then Done 0 else '(_, n, _) <- get_el h el ;; c <- dl_count f h n ;; Done (c + 1)
  end.
(** DL_DELETE(head, del): the new head and heap. (used in 842_compress.c:171, 209.) *)
Definition dl_delete (h : heap) (head del : Z) : outcome (Z * heap) :=
  '(_, n, p) <- get_el h del ;;
  if p =? del then Done (0, h)
  else if del =? head then h <- set_prev h n p ;; Done (n, h)
  else
    h <- set_next h p n ;;
    h <- (if negb (n =? 0) then set_prev h n p else set_prev h head p) ;;
    Done (head, h).
(** DL_APPEND(head, add). (used in 842_compress.c:198.) *)
Definition dl_append (h : heap) (head add : Z) : outcome (Z * heap) :=
  if negb (head =? 0) then
    '(_, _, p) <- get_el h head ;;
    h <- set_prev h add p ;;
    h <- set_next h p add ;;
    h <- set_prev h head add ;;
    h <- set_next h add 0 ;;
    Done (head, h)
  else
    h <- set_prev h add add ;;
    h <- set_next h add 0 ;;
    Done (add, h).

(** * uthash.h *)
(** p->htableN with p->nodeN: the array, the nodes of the table in the order in which they were added and the block of the table itself. (842_compress.c:80-85.) *)
Record htab := mkHtab { t_node : list Z; t_items : list Z; t_block : Z }.

(** HASH_FIND: the node, NULL if there is none.  Simplification: uthash reads only the nodes in one bucket. (used in 842_compress.c:149, 165, 186.) *)
Fixpoint uhash_find (h : heap) (items : list Z) (k : Z) : outcome Z :=
  match items with
  | [] => Done 0
  | a :: items => '(d, _) <- get_node h a ;; if d =? k then Done a else uhash_find h items k
  end.
(** HASH_ADD: the first node of a table allocates the block of the table (if that fails, uthash ends the program: Undef here). (used in 842_compress.c:192.) *)
Definition uhash_add (h : heap) (t : htab) (a : Z) : outcome (htab * heap) :=
  match t_items t with
  | [] => let '(b, h) := hmalloc h BTable in if b =? 0 then Undef else Done (mkHtab (t_node t) [a] b, h)
  | _ => Done (mkHtab (t_node t) (t_items t ++ [a]) (t_block t), h)
  end.
(** HASH_DEL: the last node that is deleted frees the block of the table. (used in 842_compress.c:176, 213.) *)
Definition uhash_del (h : heap) (t : htab) (a : Z) : outcome (htab * heap) :=
  _ <- get_node h a ;;
  let items := filter (fun b => negb (b =? a)) (t_items t) in
  match items with
  | [] => h <- hfree h (t_block t) ;; Done (mkHtab (t_node t) [] 0, h)
  | _ => Done (mkHtab (t_node t) items (t_block t), h)
  end.

(** * 842_compress.c *)
(** 842_compress.c:143-153: find_index. *)
Definition hfind_index (h : heap) (t : htab) (v : Z) : outcome Z :=
  a <- uhash_find h (t_items t) v ;;
  if a =? 0 then Done INDEX_NOT_FOUND
  else
    '(_, x) <- get_node h a ;;
    if x =? 0 then Done INDEX_NOT_FOUND else '(i, _, _) <- get_el h x ;; Done i.

(** 842_compress.c:164-180: replace_hash, the first part. *)
Definition remove_old (h : heap) (t : htab) (idx : Z) : outcome (htab * heap) :=
  old <- aget (t_node t) idx ;;
  a <- uhash_find h (t_items t) old ;;
  if a =? 0 then Done (t, h)
  else
    '(_, x) <- get_node h a ;;
    el <- dl_search (S (length h)) h x idx ;;
    if el =? 0 then Done (t, h)
    else
      '(x, h) <- dl_delete h x el ;;
      h <- set_head h a x ;;
      h <- hfree h el ;;
      n <- dl_count (S (length h)) h x ;;
      if n =? 0 then '(t, h) <- uhash_del h t a ;; h <- hfree h a ;; Done (t, h)
      else Done (t, h).

(** 842_compress.c:182-198: replace_hash, the second part.  [cast] is the conversion to the type of the member index. *)
Definition add_new (cast : Z -> Z) (h : heap) (t : htab) (idx v : Z) : outcome (htab * heap) :=
  node <- aset (t_node t) idx v ;;
  let t := mkHtab node (t_items t) (t_block t) in
  a <- uhash_find h (t_items t) v ;;
  '(a, t, h) <-
    (if a =? 0 then
       let '(a, h) := hmalloc h (BNode junk junk) in
       '(_, x) <- get_node h a ;;
       h <- hset h a (BNode v x) ;;
       h <- set_head h a 0 ;;
       '(t, h) <- uhash_add h t a ;;
       Done (a, t, h)
     else Done (a, t, h)) ;;
  let '(el, h) := hmalloc h (BEl junk junk junk) in
  '(_, n, p) <- get_el h el ;;
  h <- hset h el (BEl (cast idx) n p) ;;
  '(_, x) <- get_node h a ;;
  '(x, h) <- dl_append h x el ;;
  h <- set_head h a x ;;
  Done (t, h).

(** 842_compress.c:159-199: replace_hash. *)
Definition hreplace_hash (cast : Z -> Z) (h : heap) (t : htab) (idx v : Z) : outcome (htab * heap) :=
  '(t, h) <- remove_old h t idx ;; add_new cast h t idx v.

(** 842_compress.c:207-211: the loop of destroy_hashtable over the elements of the node [a], from [el] on. *)
Fixpoint destroy_els (fuel : nat) (h : heap) (a el : Z) : outcome heap :=
  match fuel with
  | O => NoFuel
  | S f =>
    if el =? 0 then Done h
    else
      '(_, tmp, _) <- get_el h el ;;
      '(_, x) <- get_node h a ;;
      '(x, h) <- dl_delete h x el ;;
      h <- set_head h a x ;;
      h <- hfree h el ;;
      destroy_els f h a tmp
  end.
(** 842_compress.c:201-216: destroy_hashtable, the loop over the nodes. *)
Fixpoint destroy_nodes (h : heap) (t : htab) (items : list Z) : outcome (htab * heap) :=
  match items with
  | [] => Done (t, h)
  | a :: items =>
    '(_, x) <- get_node h a ;;
    h <- destroy_els (S (length h)) h a x ;;
    '(t, h) <- uhash_del h t a ;;
    h <- hfree h a ;;
    destroy_nodes h t items
  end.
(** 842_compress.c:201-216: destroy_hashtable. *)
Definition destroy_hashtable (h : heap) (t : htab) : outcome (htab * heap) := destroy_nodes h t (t_items t).

(** The three tables. (842_compress.c:80-85.) *)
Record htabs := mkHtabs { tab8 : htab; tab4 : htab; tab2 : htab }.

(** 842_compress.c:155-157: check_index. *)
Definition hcheck_index (h : heap) (t : htab) (dv a : list Z) (n : Z) : outcome (bool * list Z) :=
  i <- aget a n ;;
  if i =? INDEX_NOT_CHECKED then
    v <- aget dv n ;;
    i' <- hfind_index h t v ;;
    a' <- aset a n i' ;;
    Done (i' >=? 0, a')
  else Done (i >=? 0, a).

(** 842_compress.c:441-467: the loop of check_template (see check_ops). *)
Fixpoint hcheck_ops (h : heap) (ts : htabs) (dt : data) (ix : idx) (l : list Z) (b : Z) : outcome (bool * idx) :=
  match l with
  | [] => Done (true, ix)
  | t :: r =>
    if negb (Z.land t OP_ACTION_INDEX =? 0) then
      '(m, ix') <-
        (if negb (Z.land t OP_AMOUNT_2 =? 0) then
           '(m, a) <- hcheck_index h (tab2 ts) (data2 dt) (index2 ix) (Z.shiftr b 1) ;;
           Done (Some m, mkIdx (index8 ix) (index4 ix) a)
         else if negb (Z.land t OP_AMOUNT_4 =? 0) then
           '(m, a) <- hcheck_index h (tab4 ts) (data4 dt) (index4 ix) (Z.shiftr b 2) ;;
           Done (Some m, mkIdx (index8 ix) a (index2 ix))
         else if negb (Z.land t OP_AMOUNT_8 =? 0) then
           '(m, a) <- hcheck_index h (tab8 ts) [data8 dt] (index8 ix) 0 ;;
           Done (Some m, mkIdx a (index4 ix) (index2 ix))
         else Done (None, ix)) ;;
      match m with
      | Some true => hcheck_ops h ts dt ix' r (b + Z.land t OP_AMOUNT)
      | _ => Done (false, ix')
      end
    else hcheck_ops h ts dt ix r (b + Z.land t OP_AMOUNT)
  end.
(** 842_compress.c:441-467: check_template. *)
Definition hcheck_template (h : heap) (ts : htabs) (dt : data) (ix : idx) (c : Z) : outcome (bool * idx) :=
  if c >=? OPS_MAX then Done (false, ix)
  else hcheck_ops h ts dt ix (firstn 4 (nth (Z.to_nat c) comp_ops [])) 0.
(** 842_compress.c:515-519: search of the first matching template (see find_template). *)
Fixpoint hfind_template (k : nat) (h : heap) (ts : htabs) (dt : data) (ix : idx) (i : Z) : outcome (Z * idx) :=
  match k with
  | O => Done (i, ix)
  | S k' =>
    '(m, ix') <- hcheck_template h ts dt ix i ;;
    if m : bool then Done (i, ix') else hfind_template k' h ts dt ix' (i + 1)
  end.

Variable e : endian.
(** 842_compress.c:503-525: process_next. *)
Definition hprocess_next (w : writer) (inp : list Z) (pos : Z) (h : heap) (ts : htabs) (dt : data) : outcome (Z * writer) :=
  let ix0 := mkIdx [INDEX_NOT_CHECKED] [INDEX_NOT_CHECKED; INDEX_NOT_CHECKED]
                   [INDEX_NOT_CHECKED; INDEX_NOT_CHECKED; INDEX_NOT_CHECKED; INDEX_NOT_CHECKED] in
  '(i, ix) <- hfind_template (Z.to_nat (OPS_MAX - 1)) h ts dt ix0 0 ;;
  add_template e w inp pos dt ix i.

(** 842_compress.c:484-498: update_hashtables. *)
Definition hupdate_hashtables (h : heap) (ts : htabs) (dt : data) (pos : Z) : outcome (htabs * heap) :=
  let n8 := Z.shiftr pos 3 mod Z.shiftl 1 I8_BITS in
  let n4 := Z.shiftr pos 2 mod Z.shiftl 1 I4_BITS in
  let n2 := Z.shiftr pos 1 mod Z.shiftl 1 I2_BITS in
  '(t8, h) <- hreplace_hash u8 h (tab8 ts) (n8 + 0) (data8 dt) ;;
  '(t4, h) <- (v <- aget (data4 dt) 0 ;; hreplace_hash u16 h (tab4 ts) (n4 + 0) v) ;;
  '(t4, h) <- (v <- aget (data4 dt) 1 ;; hreplace_hash u16 h t4 (n4 + 1) v) ;;
  '(t2, h) <- (v <- aget (data2 dt) 0 ;; hreplace_hash u8 h (tab2 ts) (n2 + 0) v) ;;
  '(t2, h) <- (v <- aget (data2 dt) 1 ;; hreplace_hash u8 h t2 (n2 + 1) v) ;;
  '(t2, h) <- (v <- aget (data2 dt) 2 ;; hreplace_hash u8 h t2 (n2 + 2) v) ;;
  '(t2, h) <- (v <- aget (data2 dt) 3 ;; hreplace_hash u8 h t2 (n2 + 3) v) ;;
  Done (mkHtabs t8 t4 t2, h).

(** 842_compress.c:582-619: the main loop (see comp_loop). *)
Fixpoint hcomp_loop (fuel : nat) (inp : list Z) (w : writer) (h : heap) (ts : htabs) (pos ilen last rc : Z)
  : outcome (option Z * writer * Z * Z * Z * htabs * heap) :=
  if ilen >? 7 then
    match fuel with
    | O => NoFuel
    | S f =>
      next <- load64 e inp pos ;;
      dt <- get_next_data e inp pos ;;
      let repeat (w : writer) (rc : Z) :=
        '(ts', h') <- hupdate_hashtables h ts dt pos ;;
        hcomp_loop f inp w h' ts' (pos + 8) (ilen - 8) next rc in
      let emit (w : writer) :=
        '(ret, w') <- (if next =? 0 then add_zeros_template e w else hprocess_next w inp pos h ts dt) ;;
        if negb (ret =? 0) then Done (Some ret, w', pos, ilen, 0, ts, h) else repeat w' 0 in
      let rc1 := if next =? last then u8 (rc + 1) else rc in
      if (next =? last) && (rc1 <=? REPEAT_BITS_MAX) then repeat w rc1
      else if negb (rc1 =? 0) then
        '(_, w') <- add_repeat_template e w rc1 ;;
        if next =? last then repeat w' 0 else emit w'
      else emit w
    end
  else Done (None, w, pos, ilen, rc, ts, h).

(** 842_compress.c:683-688: what follows the label cleanup. *)
Definition cleanup (h : heap) (p : Z) (ts : htabs) : outcome heap :=
  '(_, h) <- destroy_hashtable h (tab8 ts) ;;
  '(_, h) <- destroy_hashtable h (tab4 ts) ;;
  '(_, h) <- destroy_hashtable h (tab2 ts) ;;
  hfree h p.

(** 842_compress.c:548-554: the tables at the beginning. *)
Definition init_htabs : htabs :=
  mkHtabs (mkHtab (List.repeat 0 (Z.to_nat (2 ^ I8_BITS))) [] 0) (mkHtab (List.repeat 0 (Z.to_nat (2 ^ I4_BITS))) [] 0)
          (mkHtab (List.repeat 0 (Z.to_nat (2 ^ I2_BITS))) [] 0).

(** 842_compress.c:537-689: sw842_compress.  The result is that of the function of the same name in SerialCompModel.v and the heap. *)
Definition sw842_compress_heap (addr : Z) (inp out : list Z) (olen : Z) (h : heap) : outcome ((Z * Z * list Z) * heap) :=
  let '(p, h) := hmalloc h BParam in
  _ <- hget h p ;;
  let ilen := lenZ inp in
  let w0 := mkWriter out 0 olen 0 in
  let total := olen in
  if ilen <? 8 then
    r <- comp_tail e addr inp total w0 0 ilen ;;
    h <- cleanup h p init_htabs ;; Done (r, h)
  else
    first <- load64 e inp 0 ;;
    let last := u64 (Z.lnot first) in
    '(early, w1, pos, rem, rc, ts, h) <- hcomp_loop (Z.to_nat (ilen / 8)) inp w0 h init_htabs 0 ilen last 0 ;;
    r <- match early with
         | Some ret => Done (ret, 0, w_mem w1)
         | None =>
           '(ret, w2) <- (if negb (rc =? 0) then add_repeat_template e w1 rc else Done (0, w1)) ;;
           if negb (ret =? 0) then Done (ret, 0, w_mem w2)
           else comp_tail e addr inp total w2 pos rem
         end ;;
    h <- cleanup h p ts ;; Done (r, h).

(** serial_optimized/842_compress.cpp:569-682: optsw842_compress.  The blocks are allocated in lines 586 and 601 (bitstream.cpp:94-104) and freed in lines 673-674 and 678-679
    (bitstream.cpp:107-110); in between they are accessed whatever the input is (lines 588, 604, 669). *)
Definition optsw842_compress_heap (iaddr oaddr : Z) (inp out : list Z) (olen : Z) (h : heap) : outcome ((Z * Z * list Z) * heap) :=
  if negb (lenZ inp mod 8 =? 0) then r <- optsw842_compress e iaddr oaddr inp out olen ;; Done (r, h)
  else if negb (iaddr mod 8 =? 0) || negb (oaddr mod 8 =? 0) then sw842_compress_heap iaddr inp out olen h
  else
    let '(p, h) := hmalloc h BParam in
    _ <- hget h p ;;
    let '(s, h) := hmalloc h BStream in
    _ <- hget h s ;;
    r <- optsw842_compress e iaddr oaddr inp out olen ;;
    h <- hfree h s ;;
    h <- hfree h p ;;
    Done (r, h).
End Heap.
