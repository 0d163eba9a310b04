(** Properties of the memory that the compressors take from malloc: C93, C94.

    Reading the statements: [sw842_compress_heap malloc junk e addr inp out olen h0] is the call of
    sw842_compress of PropSerial.v, made when the blocks [h0] (address and content) are allocated;
    [malloc h] is the address that malloc returns when the blocks [h] are allocated, 0 being NULL, and
    [junk] what is in the memory it returns.  The result is [Done (result, blocks that are allocated
    afterwards)], or [Undef] for an access to a block that is not allocated (before it is allocated,
    after it is freed, through NULL), a block freed twice, or other undefined behaviour.
    [optsw842_compress_heap] is the same for optsw842_compress. *)
From Coq Require Import ZArith List Bool Lia Permutation.
From Verif Require Import SpecBits CBase SerialCompModel OptCompModel SerialProps OptProps InplaceItems HeapModel HeapLists HeapProofs PropOpt.
Import ListNotations.
Open Scope Z_scope.

(** The compressor returns what PropSerial.v says about it, and when it returns, the blocks allocated are those from before the call, unchanged: nothing is leaked and nothing of the
    caller is touched.  It never has more than 2052 blocks at a time, however long the input is: it is enough if malloc succeeds up to there. *)
Theorem C93_sw842_compress_memory : forall e addr inp out olen malloc junk h0,
  is_bytes inp -> is_bytes out -> 0 <= olen <= lenZ out ->
  NoDup (map fst h0) -> ~ In 0 (map fst h0) ->
  (forall h, malloc h <> 0 -> ~ In (malloc h) (map fst h)) ->
  (forall h, lenZ h < lenZ h0 + 2052 -> malloc h <> 0) ->
  exists ret n m h1, sw842_compress_heap malloc junk e addr inp out olen h0 = Done ((ret, n, m), h1) /\
    sw842_compress e addr inp out olen = Done (ret, n, m) /\ Permutation h1 h0.
Proof.
  intros e addr inp out olen malloc junk h0 Hi Ho Hc N Z F S.
  destruct (c03 e addr inp out olen Hi Ho Hc) as (ret & n & m & E & _).
  destruct (sw842_heap_ok malloc junk (lenZ h0 + 2052) (fun h => conj (F h) (S h)) e addr inp out olen h0 h0 _ ltac:(lia) (holds_self _ N Z) E) as (h1 & E1 & (_ & _ & P)).
  exists ret, n, m, h1. auto.
Qed.
Print Assumptions C93_sw842_compress_memory.

(** A malloc with room for [k] blocks, some blocks of the caller, and an input. *)
Definition malloc_of (k : Z) (h : heap) : Z := if lenZ h <? k then fresh h else 0.
Lemma malloc_of_ok k : (forall h, malloc_of k h <> 0 -> ~ In (malloc_of k h) (map fst h)) /\ (forall h, lenZ h < k -> malloc_of k h <> 0).
Proof.
  unfold malloc_of. split; intros h; destruct (Z.ltb_spec (lenZ h) k); intros; try (apply (fresh_ok h)); try lia; contradiction.
Qed.
Definition others : heap := [(5, BOther [1; 2]); (3, BStream)].
Example C93_case :
  (NoDup (map fst others) /\ ~ In 0 (map fst others)) /\
  (forall h, malloc_of 2054 h <> 0 -> ~ In (malloc_of 2054 h) (map fst h)) /\ (forall h, lenZ h < lenZ others + 2052 -> malloc_of 2054 h <> 0) /\
  sw842_compress_heap (malloc_of 2054) (-1) LE 0 osample (obuf 64) 64 others = Done ((0, 24, [0; 8; 16; 24; 32; 40; 48; 56; 70; 193; 227; 128; 66; 66; 64; 62; 251; 115; 151; 149; 0; 0; 0; 0] ++ obuf 40), others).
Proof.
  split; [|split; [apply malloc_of_ok|split; [apply malloc_of_ok|vm_compute; reflexivity]]].
  split; [|cbn; lia]. repeat constructor; cbn; lia.
Qed.

(** The same for optsw842_compress, which needs two blocks if both pointers are aligned (else it calls sw842_compress).  An empty input at aligned pointers is excluded: see C18. *)
Theorem C93_optsw842_compress_memory : forall e iaddr oaddr inp out olen malloc junk h0,
  is_bytes inp -> is_bytes out -> 0 <= olen <= lenZ out -> (inp <> [] \/ iaddr mod 8 <> 0 \/ oaddr mod 8 <> 0) ->
  NoDup (map fst h0) -> ~ In 0 (map fst h0) ->
  (forall h, malloc h <> 0 -> ~ In (malloc h) (map fst h)) ->
  (forall h, lenZ h < lenZ h0 + (if (iaddr mod 8 =? 0) && (oaddr mod 8 =? 0) then 2 else 2052) -> malloc h <> 0) ->
  exists ret n m h1, optsw842_compress_heap malloc junk e iaddr oaddr inp out olen h0 = Done ((ret, n, m), h1) /\
    optsw842_compress e iaddr oaddr inp out olen = Done (ret, n, m) /\ Permutation h1 h0.
Proof.
  intros e iaddr oaddr inp out olen malloc junk h0 Hi Ho Hc Hn N Z F S.
  destruct (c18_bounds e iaddr oaddr inp out olen Hi Ho Hc Hn) as (ret & n & m & E & _).
  destruct (optsw842_heap_ok malloc junk _ (fun h => conj (F h) (S h)) e iaddr oaddr inp out olen h0 h0 _ (Z.le_refl _) (holds_self _ N Z) E) as (h1 & E1 & (_ & _ & P)).
  exists ret, n, m, h1. auto.
Qed.
Print Assumptions C93_optsw842_compress_memory.
Example C93_opt_case :
  (forall h, malloc_of 4 h <> 0 -> ~ In (malloc_of 4 h) (map fst h)) /\ (forall h, lenZ h < lenZ others + 2 -> malloc_of 4 h <> 0) /\
  optsw842_compress_heap (malloc_of 4) (-1) LE 0 0 osample (obuf 64) 64 others = Done ((0, 24, osample_z ++ obuf 40), others).
Proof. split; [apply malloc_of_ok|split; [apply malloc_of_ok|vm_compute; reflexivity]]. Qed.

(** Full statement: if there is no memory, the compressors return an error.  They do not: whatever the input is, they write through the null pointer
    (842_compress.c:540-548; 842_compress.cpp:586-588). *)
Theorem C94_out_of_memory_is_reported_refuted :
  (forall e addr inp out olen junk h0, sw842_compress_heap (fun _ => 0) junk e addr inp out olen h0 = Undef) /\
  (forall e iaddr oaddr inp out olen junk h0, lenZ inp mod 8 = 0 -> optsw842_compress_heap (fun _ => 0) junk e iaddr oaddr inp out olen h0 = Undef).
Proof.
  split; [reflexivity|]. intros e iaddr oaddr inp out olen junk h0 E. unfold optsw842_compress_heap. rewrite E. cbn [Z.eqb negb]. destruct (_ || _); reflexivity.
Qed.
Print Assumptions C94_out_of_memory_is_reported_refuted.
(** What holds: if malloc fails at any point, then either that is noticed in this way or the result is the right one and nothing is leaked.  Missing: that the failure is reported. *)
Theorem C94_out_of_memory_is_reported_partial : forall e addr inp out olen malloc junk h0,
  is_bytes inp -> is_bytes out -> 0 <= olen <= lenZ out ->
  NoDup (map fst h0) -> ~ In 0 (map fst h0) ->
  (forall h, malloc h <> 0 -> ~ In (malloc h) (map fst h)) ->
  sw842_compress_heap malloc junk e addr inp out olen h0 = Undef \/
  exists ret n m h1, sw842_compress_heap malloc junk e addr inp out olen h0 = Done ((ret, n, m), h1) /\
    sw842_compress e addr inp out olen = Done (ret, n, m) /\ Permutation h1 h0.
Proof.
  intros e addr inp out olen malloc junk h0 Hi Ho Hc N Z F.
  destruct (weak_sw842 malloc (more malloc) junk (more_weak malloc) e addr inp out olen h0) as [E|E]; [now left|right]. rewrite E.
  destruct (c03 e addr inp out olen Hi Ho Hc) as (ret & n & m & E0 & _).
  destruct (sw842_heap_ok _ junk (lenZ h0 + 2052) (more_good _ _ F) e addr inp out olen h0 h0 _ ltac:(lia) (holds_self _ N Z) E0) as (h1 & E1 & (_ & _ & P)).
  exists ret, n, m, h1. auto.
Qed.
Print Assumptions C94_out_of_memory_is_reported_partial.
Theorem C94_optsw842_out_of_memory_partial : forall e iaddr oaddr inp out olen malloc junk h0,
  is_bytes inp -> is_bytes out -> 0 <= olen <= lenZ out ->
  NoDup (map fst h0) -> ~ In 0 (map fst h0) ->
  (forall h, malloc h <> 0 -> ~ In (malloc h) (map fst h)) ->
  optsw842_compress_heap malloc junk e iaddr oaddr inp out olen h0 = Undef \/
  exists ret n m h1, optsw842_compress_heap malloc junk e iaddr oaddr inp out olen h0 = Done ((ret, n, m), h1) /\
    optsw842_compress e iaddr oaddr inp out olen = Done (ret, n, m) /\ Permutation h1 h0.
Proof.
  intros e iaddr oaddr inp out olen malloc junk h0 Hi Ho Hc N Z F.
  destruct (weak_optsw842 malloc (more malloc) junk (more_weak malloc) e iaddr oaddr inp out olen h0) as [E|E]; [now left|]. rewrite E.
  assert (D : inp = [] /\ iaddr mod 8 = 0 /\ oaddr mod 8 = 0 \/ (inp <> [] \/ iaddr mod 8 <> 0 \/ oaddr mod 8 <> 0)).
  { destruct inp; [|right; left; discriminate]. destruct (Z.eq_dec (iaddr mod 8) 0); [|tauto]. destruct (Z.eq_dec (oaddr mod 8) 0); tauto. }
  destruct D as [(-> & Ai & Ao)|D].
  - left. unfold optsw842_compress_heap. rewrite Ai, Ao. cbn [lenZ length Z.of_nat Z.modulo Z.div_eucl Z.eqb negb orb].
    destruct (C18_optsw842_compress_in_bounds_partial e iaddr oaddr [] out olen Hi Ho Hc) as [[_ U] _]. rewrite (U (conj eq_refl (conj Ai Ao))).
    destruct (hmalloc _ h0 _) as [p h1]. destruct (hget h1 p) eqn:G1; cbn [bind]; auto. 2:{ unfold hget in G1. destruct (p =? 0); [discriminate|]. destruct (find _ _); discriminate. }
    destruct (hmalloc _ h1 _) as [s h2]. destruct (hget h2 s) eqn:G2; cbn [bind]; auto. unfold hget in G2. destruct (s =? 0); [discriminate|]. destruct (find _ _); discriminate.
  - right. destruct (c18_bounds e iaddr oaddr inp out olen Hi Ho Hc D) as (ret & n & m & E0 & _).
    destruct (optsw842_heap_ok _ junk _ (more_good _ _ F) e iaddr oaddr inp out olen h0 h0 _ (Z.le_refl _) (holds_self _ N Z) E0) as (h1 & E1 & (_ & _ & P)).
    exists ret, n, m, h1. auto.
Qed.
Print Assumptions C94_optsw842_out_of_memory_partial.
(** Both can happen: with room for 52 blocks beside the two of the caller the call of C93_case ends well, with room for 51 it does not. *)
Example C94_case : sw842_compress_heap (malloc_of 53) (-1) LE 0 osample (obuf 64) 64 others = Undef /\
  sw842_compress_heap (malloc_of 54) (-1) LE 0 osample (obuf 64) 64 others =
    Done ((0, 24, [0; 8; 16; 24; 32; 40; 48; 56; 70; 193; 227; 128; 66; 66; 64; 62; 251; 115; 151; 149; 0; 0; 0; 0] ++ obuf 40), others) /\
  optsw842_compress_heap (malloc_of 3) (-1) LE 0 0 osample (obuf 64) 64 others = Undef.
Proof. split; [|split]; vm_compute; reflexivity. Qed.
