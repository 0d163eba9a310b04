(** C108: appending data.  words64 (SpecCalls.v): bits rounded up to 64-bit words, in bytes. *)
From Coq Require Import ZArith List Bool Lia.
From Verif Require Import SpecBits SpecCalls CBase BitsLemmas SerialCompModel SerialIdeal SerialValid SerialComp SerialProps OptCompModel OptComp OptProps Append.
Import ListNotations.
Open Scope Z_scope.

(** C108: for whole blocks [x] and any [y], the output of sw842_compress for [x ++ y] is not smaller than that for [x], and larger by
    at most 69 bits for every block of [y] and the short-data template for what remains. *)
Theorem C108_sw842_append : forall e e' addr addr' x y out out' olen olen' n m n' m',
  is_bytes x -> is_bytes y -> lenZ x mod 8 = 0 -> is_bytes out -> is_bytes out' -> 0 <= olen <= lenZ out -> 0 <= olen' <= lenZ out' ->
  sw842_compress e addr x out olen = Done (0, n, m) ->
  sw842_compress e' addr' (x ++ y) out' olen' = Done (0, n', m') ->
  n <= n' <= words64 (8 * n + 69 * (lenZ y / 8) + (if lenZ y mod 8 =? 0 then 0 else 8 + 8 * (lenZ y mod 8))).
Proof.
  intros e e' addr addr' x y out out' olen olen' n m n' m' Bx By M Bo Bo' H H' E E'.
  assert (BXY : is_bytes (x ++ y)) by (apply is_bytes_app; auto).
  destruct (sw842_compress_out e addr x out olen Bx Bo H) as [(_ & _ & m1 & E1 & _)|(_ & m1 & E1 & _)]; rewrite E1 in E; [|discriminate].
  destruct (sw842_compress_out e' addr' (x ++ y) out' olen' BXY Bo' H') as [(_ & _ & m2 & E2 & _)|(_ & m2 & E2 & _)]; rewrite E2 in E'; [|discriminate].
  injection E as <- _. injection E' as <- _. rewrite !ideal_out_length.
  rewrite <- Z.add_assoc. apply padded_bounds. apply ideal_bits_app. now apply opt_len8.
Qed.
Print Assumptions C108_sw842_append.
(** C108: and if there is no room for [x], there is none for [x ++ y]. *)
Theorem C108_sw842_append_no_space : forall e e' addr addr' x y out out' olen m,
  is_bytes x -> is_bytes y -> lenZ x mod 8 = 0 -> is_bytes out -> is_bytes out' -> 0 <= olen <= lenZ out -> olen <= lenZ out' ->
  sw842_compress e addr x out olen = Done (- ENOSPC, 0, m) ->
  exists m', sw842_compress e' addr' (x ++ y) out' olen = Done (- ENOSPC, 0, m').
Proof.
  intros e e' addr addr' x y out out' olen m Bx By M Bo Bo' H H' E.
  assert (BXY : is_bytes (x ++ y)) by (apply is_bytes_app; auto).
  pose proof (ideal_bits_app x y (opt_len8 x M)) as L. apply padded_bounds in L. rewrite <- !ideal_out_length in L.
  destruct (sw842_compress_out e addr x out olen Bx Bo H) as [(_ & _ & m1 & E1 & _)|(A & m1 & E1 & _)]; [rewrite E1 in E; discriminate|].
  destruct (sw842_compress_out e' addr' (x ++ y) out' olen BXY Bo' ltac:(lia)) as [(A' & B' & m2 & E2 & _)|(_ & m2 & E2 & _)]; [lia|eauto].
Qed.
Print Assumptions C108_sw842_append_no_space.

(** C108: the same for optsw842_compress in aligned buffers. *)
Theorem C108_optsw842_append : forall e e' iaddr oaddr iaddr' oaddr' x y out out' olen olen' n m n' m',
  is_bytes x -> is_bytes y -> x <> [] -> lenZ x mod 8 = 0 -> lenZ y mod 8 = 0 -> is_bytes out -> is_bytes out' ->
  0 <= olen <= lenZ out -> 0 <= olen' <= lenZ out' -> iaddr mod 8 = 0 -> oaddr mod 8 = 0 -> iaddr' mod 8 = 0 -> oaddr' mod 8 = 0 ->
  optsw842_compress e iaddr oaddr x out olen = Done (0, n, m) ->
  optsw842_compress e' iaddr' oaddr' (x ++ y) out' olen' = Done (0, n', m') ->
  n <= n' <= words64 (8 * n + 69 * (lenZ y / 8)).
Proof.
  intros e e' iaddr oaddr iaddr' oaddr' x y out out' olen olen' n m n' m' Bx By NX M MY Bo Bo' H H' A1 A2 A3 A4 E E'.
  assert (BXY : is_bytes (x ++ y)) by (apply is_bytes_app; auto).
  assert (MXY : lenZ (x ++ y) mod 8 = 0). { rewrite lenZ_app, Z.add_mod, M, MY by lia. reflexivity. }
  assert (NXY : x ++ y <> []) by (destruct x; [tauto|discriminate]).
  destruct (optsw842_compress_out e iaddr oaddr x out olen Bx Bo H A1 A2 M NX) as [(_ & m1 & E1 & _)|(_ & m1 & E1 & _)]; rewrite E1 in E; [|discriminate].
  destruct (optsw842_compress_out e' iaddr' oaddr' (x ++ y) out' olen' BXY Bo' H' A3 A4 MXY NXY) as [(_ & m2 & E2 & _)|(_ & m2 & E2 & _)]; rewrite E2 in E'; [|discriminate].
  injection E as <- _. injection E' as <- _. rewrite !opt_out_length. apply padded_bounds. apply opt_bits_app; auto. now apply opt_len8.
Qed.
Print Assumptions C108_optsw842_append.

(** The condition that [x] consists of whole blocks is needed: 15 bytes can take more than the same with one byte more. *)
Definition seven : list Z := [1; 2; 3; 4; 5; 6; 7; 8; 1; 2; 3; 4; 5; 6; 7].
Theorem C108_whole_blocks_needed : exists x y, is_bytes x /\ is_bytes y /\ forall e, exists m m',
  sw842_compress e 0 x (List.repeat 0 40) 40 = Done (0, 24, m) /\ sw842_compress e 0 (x ++ y) (List.repeat 0 40) 40 = Done (0, 16, m').
Proof.
  exists seven, [8]. split; [repeat constructor; unfold is_byte; lia|]. split; [repeat constructor; unfold is_byte; lia|].
  intros []; do 2 eexists; split; vm_compute; reflexivity.
Qed.
Print Assumptions C108_whole_blocks_needed.
Definition eight : list Z := [1; 2; 3; 4; 5; 6; 7; 8].
Example C108_case : exists m1 m2 m3 m4,
  sw842_compress LE 0 eight (List.repeat 0 40) 40 = Done (0, 16, m1) /\
  sw842_compress BE 3 (eight ++ eight ++ [9; 9; 9]) (List.repeat 0 40) 40 = Done (0, 24, m2) /\
  optsw842_compress LE 0 0 eight (List.repeat 0 40) 40 = Done (0, 16, m3) /\
  optsw842_compress LE 0 0 (eight ++ [8; 7; 6; 5; 4; 3; 2; 1]) (List.repeat 0 40) 40 = Done (0, 24, m4) /\
  words64 (8 * 16 + 69 * (11 / 8) + 8 + 8 * 3) = 32.
Proof. do 4 eexists. do 4 (split; [vm_compute; reflexivity|]). reflexivity. Qed.
