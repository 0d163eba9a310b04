(** The size of the output of optsw842_compress, computed from the input alone. *)
From Coq Require Import ZArith List Bool.
From Verif Require Import SpecBits Spec842 SpecOptimal.
Import ListNotations.
Open Scope Z_scope.

(** Bytes as a number, the first one the most significant. *)
Definition num (l : list Z) : Z := fold_left (fun a c => 256 * a + c) l 0.
(** The pieces of [n] bytes of a block, as numbers. *)
Definition pieces_of (n : nat) (b : list Z) : list Z :=
  map (fun k => num (slice (k * n) n b)) (seq 0 (8 / n)).
(** The number of places a reference to [n] bytes can name. *)
Definition places (n : nat) : nat := if (n =? 4)%nat then 512 else 256.
(** The slot of the hash table for pieces of [n] bytes in which the value [v] is looked up. *)
Definition slot (n : nat) (v : Z) : Z :=
  (11400714785074694791 * v) mod 2 ^ 64 / 2 ^ (if (n =? 4)%nat then 53 else 54).

(** What the compressor has read: the blocks, oldest first, each with the block whose slots
    its pieces were entered in. *)
Definition history := list (list Z * list Z).
(** The pieces of [n] bytes that were read, with the slots they were entered in. *)
Definition entered (n : nat) (h : history) : list (Z * Z) :=
  concat (map (fun bf => combine (pieces_of n (fst bf)) (map (slot n) (pieces_of n (snd bf)))) h).
(** The number of the last piece that was entered in the slot [s]. *)
Fixpoint last_in (es : list (Z * Z)) (s : Z) : option nat :=
  match es with
  | [] => None
  | (_, s') :: r => match last_in r s with Some k => Some (S k) | None => if s' =? s then Some 0%nat else None end
  end.
(** The number of the last of [c] pieces that has the same place as the piece number [k]. *)
Definition now_at (N c k : nat) : nat := (k + N * ((c - 1 - k) / N))%nat.
(** A reference for the value [v] of [n] bytes is found: what is now in the place of the last piece that was entered
    in the slot of [v] is [v]. *)
Definition found (n : nat) (h : history) (v : Z) : bool :=
  match last_in (entered n h) (slot n v) with
  | Some k => nth (now_at (places n) (length (entered n h)) k) (map fst (entered n h)) 0 =? v
  | None => false
  end.
(** For the [n] bytes at offset [o] of the block [b]. *)
Definition found_at (h : history) (b : list Z) (o n : nat) : bool := found n h (num (slice o n b)).

(** The number of argument bits of the shortest of the 26 templates all of whose references are found. *)
Definition shortest (avail : nat -> nat -> bool) : Z :=
  fold_right (fun op m => match template (Z.of_nat op) with
    | Some acts => if usable avail 0 acts then Z.min (Z.of_nat (acts_size acts)) m else m
    | None => m
    end) 64 (seq 0 26).

(** [r] repetitions take a template of 11 bits for every 64 of them. *)
Definition repeats (r : Z) : Z := 11 * ((r + 63) / 64).
(** The number of bits for the blocks that follow the history [h]; [last]: the block before; [r]: how often it has
    been repeated; [key]: the block whose slots are used for a block that is not looked up itself. *)
Fixpoint blocks_size (h : history) (key : list Z) (last : option (list Z)) (r : Z) (blocks : list (list Z)) : Z :=
  match blocks with
  | [] => repeats r
  | b :: bs =>
    if match last with Some l => num l =? num b | None => false end
    then blocks_size (h ++ [(b, key)]) key (Some b) (r + 1) bs
    else if num b =? 0
    then repeats r + 5 + blocks_size (h ++ [(b, key)]) key (Some b) 0 bs
    else repeats r + (5 + shortest (found_at h b)) + blocks_size (h ++ [(b, b)]) b (Some b) 0 bs
  end.
(** The number of bits for [x]: its blocks, the end template, and the CRC. *)
Definition opt_size (x : list Z) : Z :=
  blocks_size [] (repeat 0 8) None 0 (map (fun k => slice (8 * k) 8 x) (seq 0 (length x / 8))) + 5 + 32.

(** Block number [k] of the blocks [L] is the same as one of the 256 blocks before it, and no block between them has its slot. *)
Definition recurs (L : list (list Z)) (k : nat) : Prop :=
  exists i, (i < k < length L)%nat /\ (k <= i + 256)%nat /\ nth i L [] = nth k L [] /\
    forall j, (i < j < k)%nat -> slot 8 (num (nth j L [])) <> slot 8 (num (nth k L [])).
