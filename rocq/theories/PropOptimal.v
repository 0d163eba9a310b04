(** Properties of the choice of the encoding: C61, C62, C65.

    Reading the statements: [valid_842 false z x] says that the bytes [z] are a hardware
    842 stream for [x] (Spec842.v); [words64 b] is the number of bytes that [b] bits
    take in whole 64-bit words (SpecCalls.v); [zero_pairs x] counts the zero blocks of
    [x] that follow a zero block (SpecOptimal.v). *)
From Coq Require Import ZArith List Bool Lia.
From Verif Require Import SpecBits SpecCrc Spec842 SpecCalls CBase SerialCompModel SerialDecompModel OptCompModel OptDecompModel SpecOptimal
  OptProps Optimal OptCheapest.
Import ListNotations.
Open Scope Z_scope.

Ltac isb := repeat constructor; unfold is_byte; lia.

(** C61: no hardware stream for the same data is shorter than the output of
    sw842_compress, but for 6 bits for every zero block that follows a zero block. *)
Theorem C61_sw842_shortest : forall e addr inp out olen n m z,
  is_bytes inp -> is_bytes out -> 0 <= olen <= lenZ out -> lenZ inp mod 8 = 0 ->
  sw842_compress e addr inp out olen = Done (0, n, m) -> valid_842 false z inp ->
  n <= words64 (8 * lenZ z + 6 * zero_pairs inp).
Proof. exact optimal. Qed.
Print Assumptions C61_sw842_shortest.
Definition twice : list Z := [1; 2; 3; 4; 5; 6; 7; 8; 9; 8; 7; 6; 1; 2; 3; 4].
Definition twice_z : list Z := [0; 8; 16; 24; 32; 40; 48; 56; 65; 2; 66; 1; 193; 128; 30; 67; 4; 179; 127; 0; 0; 0; 0; 0].
Example C61_case : is_bytes twice /\ lenZ twice mod 8 = 0 /\ zero_pairs twice = 0 /\ valid_842 false twice_z twice /\
  exists m, sw842_compress LE 0 twice (List.repeat 0 64) 64 = Done (0, lenZ twice_z, m).
Proof.
  split; [isb|]. split; [reflexivity|]. split; [reflexivity|]. split.
  - refine (proj1 (proj1 (c20 LE 0 0 twice_z (List.repeat 0 64) 64 twice _ _ _ _ _ _) _)); try isb; try (vm_compute; intuition discriminate); reflexivity.
  - eexists. vm_compute. reflexivity.
Qed.
(** The exception is real: for data with pairs of zero blocks there can be a shorter stream,
    because a repeated zero block is encoded as repeat (11 bits), not as zeros (5 bits). *)
Definition pairs_x : list Z := [1; 2; 3; 4; 5; 6; 7; 8] ++ concat (List.repeat (List.repeat 0 16 ++ [1; 2; 3; 4; 5; 6; 7; 8]) 11).
Definition pairs_z : list Z := [0; 8; 16; 24; 32; 40; 48; 56; 71; 57; 144; 14; 115; 32; 28; 230; 64; 57; 204; 128; 115; 153; 0; 231; 50; 1; 206; 100; 3; 156; 200; 7; 57; 144; 14; 115; 32; 28; 230; 64; 61; 118; 9; 1; 128; 0; 0; 0].
Theorem C61_zero_pairs_cost : exists x z, is_bytes x /\ lenZ x mod 8 = 0 /\ valid_842 false z x /\ lenZ z = 48 /\
  forall e, exists m, sw842_compress e 0 x (List.repeat 0 400) 400 = Done (0, 56, m).
Proof.
  exists pairs_x, pairs_z. split; [isb|]. split; [reflexivity|]. split; [|split; [reflexivity|]].
  - refine (proj1 (proj1 (c20 LE 0 0 pairs_z (List.repeat 0 400) 400 pairs_x _ _ _ _ _ _) _)); try isb; try (vm_compute; intuition discriminate); reflexivity.
  - intros e. destruct e; eexists; vm_compute; reflexivity.
Qed.
Print Assumptions C61_zero_pairs_cost.

(** C62: which references are possible for the four 2-byte, two 4-byte and the 8-byte piece of
    a block is arbitrary ([avail]); the template that optsw842_compress then takes
    uses possible references only, and no such template is shorter. *)
Theorem C62_optsw842_cheapest_template : forall avail : nat -> nat -> bool,
  exists op acts, get_template (template_keys [avail 0 2; avail 2 2; avail 4 2; avail 6 2; avail 0 4; avail 4 4; avail 0 8]%nat) = Done op /\
    template op = Some acts /\ usable avail 0 acts = true /\
    forall op' acts', template op' = Some acts' -> usable avail 0 acts' = true -> (acts_size acts <= acts_size acts')%nat.
Proof. exact cheapest. Qed.
Print Assumptions C62_optsw842_cheapest_template.
Example C62_case : usable (fun b n => (b =? 4)%nat || (n =? 2)%nat) 0 [I 2; I 2; I 4] = true /\
  get_template (template_keys [true; true; true; true; false; true; false]) = Done 0x13 /\ acts_size [I 2; I 2; I 4] = 25%nat.
Proof. repeat split. Qed.
(** C65: but optsw842_compress does not find every possible reference: its output is not always as short as
    possible, also without zero blocks. *)
Definition missed : list Z := [11; 158; 173; 126; 4; 253; 171; 247; 55; 210; 83; 163; 209; 182; 43; 255; 139; 164; 238; 170; 50; 126; 88; 117; 155; 50; 11; 158; 173; 126; 4; 253; 218; 155; 219; 185; 25; 165; 139; 164; 83; 163; 209; 182; 43; 255; 49; 129; 226; 149; 55; 72; 60; 120; 145; 200; 83; 163; 209; 182; 43; 255; 49; 129; 11; 158; 173; 126; 4; 253; 171; 247; 4; 253; 171; 247; 30; 188; 218; 155; 62; 248; 25; 9; 133; 248; 77; 219; 209; 182; 43; 255; 49; 129; 129; 155; 88; 117; 55; 210; 83; 163; 209; 182; 25; 165; 139; 164; 238; 170; 50; 126; 173; 126; 4; 253; 171; 247; 30; 188; 226; 149; 55; 72; 60; 120; 145; 200; 209; 182; 43; 255; 49; 129; 129; 155; 145; 200; 68; 96; 62; 248; 25; 9; 77; 219; 155; 50; 11; 158; 173; 126; 25; 165; 139; 164; 238; 170; 50; 126].
Theorem C65_optsw842_shortest_refuted : exists x out n n' m m', is_bytes x /\ lenZ x mod 8 = 0 /\ zero_pairs x = 0 /\
  sw842_compress LE 0 x out 400 = Done (0, n, m) /\ optsw842_compress LE 0 0 x out 400 = Done (0, n', m') /\ n < n'.
Proof.
  exists missed, (List.repeat 0 400). do 4 eexists. split; [isb|]. split; [reflexivity|]. split; [reflexivity|].
  split; [vm_compute; reflexivity|]. split; [vm_compute; reflexivity|]. vm_compute. reflexivity.
Qed.
Print Assumptions C65_optsw842_shortest_refuted.
