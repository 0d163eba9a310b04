(** Properties of the references optsw842_compress finds: C102, C103.

    Reading the statements: [opt_size x] (SpecFinds.v) is a number of bits computed from
    the data [x] alone: 11 bits for every 64 repetitions of a block, 5 for a zero block, and for any
    other block 5 plus the arguments of the shortest template all of whose references are
    found; [words64 b] is the number of bytes that [b] bits take in whole 64-bit words
    (SpecCalls.v); [slot 8 (num b)] is the slot of the hash table for the block [b]. *)
From Coq Require Import ZArith List Bool Lia.
From Verif Require Import SpecBits SpecCrc Spec842 SpecCalls SpecFinds CBase BitsLemmas SerialCompModel SerialValid OptCompModel
  OptComp OptProps OptFinds OptHidden.
Import ListNotations.
Open Scope Z_scope.

Ltac isb := repeat constructor; unfold is_byte; lia.

(** C102: the size of the output is [opt_size] in whole words, and it is what decides between success and failure. *)
Theorem C102_size : forall e iaddr oaddr inp out olen,
  is_bytes inp -> is_bytes out -> 0 <= olen <= lenZ out -> iaddr mod 8 = 0 -> oaddr mod 8 = 0 ->
  lenZ inp mod 8 = 0 -> inp <> [] ->
  let n := words64 (opt_size inp) in
  (n <= olen -> exists m, optsw842_compress e iaddr oaddr inp out olen = Done (0, n, m)) /\
  (olen < n -> exists m, optsw842_compress e iaddr oaddr inp out olen = Done (- ENOSPC, 0, m)).
Proof.
  intros e iaddr oaddr inp out olen Hi Ho Hc A1 A2 HM HN n.
  pose proof (opt_size_out inp (opt_len8 _ HM)) as S. fold n in S.
  destruct (optsw842_compress_out e iaddr oaddr inp out olen Hi Ho Hc A1 A2 HM HN) as [(L & m & E & _)|(L & m & E & _)]; rewrite S in *;
    (split; intros; [|]); try lia; eauto.
Qed.
Print Assumptions C102_size.
(** A block, a repetition of it, a zero block, and a block whose second half is that of the first one. *)
Definition mixed : list Z :=
  [1; 2; 3; 4; 5; 6; 7; 8] ++ [1; 2; 3; 4; 5; 6; 7; 8] ++ [9; 9; 9; 9; 9; 9; 9; 9] ++ [1; 2; 3; 4; 5; 6; 7; 8] ++ [0; 0; 0; 0; 0; 0; 0; 0] ++ [21; 22; 23; 24; 9; 9; 9; 9].
Example C102_case : is_bytes mixed /\ lenZ mixed mod 8 = 0 /\ opt_size mixed = 69 + 11 + (5 + 64) + 13 + 5 + (5 + 41) + 37 /\
  exists m, optsw842_compress LE 0 0 mixed (List.repeat 0 64) 64 = Done (0, 32, m).
Proof. split; [isb|]. split; [reflexivity|]. split; [vm_compute; reflexivity|]. eexists. vm_compute. reflexivity. Qed.

(** C103, the proved part: if no block is zero, each block that recurs within the next 256 blocks with no block of the same
    slot between takes at most 13 bits, in any data. *)
Theorem C103_recurring_partial : forall e iaddr oaddr L K out olen n m,
  Forall (fun b => is_bytes b /\ length b = 8%nat /\ b <> repeat 0 8) L -> L <> [] ->
  NoDup K -> Forall (recurs L) K ->
  is_bytes out -> 0 <= olen <= lenZ out -> iaddr mod 8 = 0 -> oaddr mod 8 = 0 ->
  optsw842_compress e iaddr oaddr (concat L) out olen = Done (0, n, m) ->
  n <= words64 (69 * (Z.of_nat (length L) - Z.of_nat (length K)) + 13 * Z.of_nat (length K) + 37).
Proof.
  intros e iaddr oaddr L K out olen n m HB NL ND HK Ho Hc A1 A2 E.
  assert (H8 : Forall (fun b => length b = 8%nat /\ is_bytes b /\ num b <> 0) L).
  { eapply Forall_impl; [|exact HB]. intros b (B & LB & N). split; auto. split; auto. intros X. apply N. now apply zero_block. }
  set (x := concat L) in *.
  assert (LX : lenZ x = 8 * Z.of_nat (length L)).
  { unfold x, lenZ. rewrite concat_len8; [lia|]. eapply Forall_impl; [|exact H8]. intros b [X _]; exact X. }
  assert (BX : is_bytes x).
  { unfold x. clear - HB. induction HB as [|b L (B & _) _ IH]; [constructor|]. cbn [concat]. apply is_bytes_app. auto. }
  assert (HM : lenZ x mod 8 = 0) by (rewrite LX, Z.mul_comm; apply Z.mod_mul; lia).
  assert (HN : x <> []).
  { intros X. rewrite X in LX. change (lenZ []) with 0 in LX. destruct L; [contradiction|]. cbn [length] in LX. lia. }
  destruct (C102_size e iaddr oaddr x out olen BX Ho Hc A1 A2 HM HN) as [S F].
  destruct (Z.le_gt_cases (words64 (opt_size x)) olen) as [C|C].
  2:{ destruct (F C) as (m' & E'). rewrite E in E'. discriminate. }
  destruct (S C) as (m' & E'). rewrite E in E'. injection E' as -> _.
  pose proof (recur_opt_size L K H8 ND HK) as B. fold x in B.
  unfold words64. apply Z.mul_le_mono_nonneg_l; [lia|]. apply Z.div_le_mono; lia.
Qed.
Print Assumptions C103_recurring_partial.
Definition recurring : list (list Z) :=
  [[1; 2; 3; 4; 5; 6; 7; 8]; [9; 8; 7; 6; 5; 4; 3; 2]; [1; 2; 3; 4; 5; 6; 7; 8]; [7; 7; 7; 7; 8; 8; 8; 8]; [1; 2; 3; 4; 5; 6; 7; 8]; [9; 8; 7; 6; 5; 4; 3; 2]].
Example C103_recurring_case : Forall (fun b => is_bytes b /\ length b = 8%nat /\ b <> repeat 0 8) recurring /\
  NoDup [2; 4; 5]%nat /\ Forall (recurs recurring) [2; 4; 5]%nat /\
  exists m, optsw842_compress LE 0 0 (concat recurring) (List.repeat 0 64) 64 = Done (0, words64 (69 * (6 - 3) + 13 * 3 + 37), m).
Proof.
  split. { repeat (apply Forall_cons; [split; [isb|split; [reflexivity|discriminate]]|]). constructor. }
  split. { repeat constructor; cbn; intuition discriminate. }
  split. { apply Forall_cons; [exists 0%nat|apply Forall_cons; [exists 2%nat|apply Forall_cons; [exists 1%nat|constructor]]];
    (split; [cbn; lia|]; split; [lia|]; split; [reflexivity|]; intros j Hj;
     assert (J : j = 1%nat \/ j = 2%nat \/ j = 3%nat \/ j = 4%nat) by lia;
     destruct J as [-> | [-> | [-> | ->]]]; try lia; vm_compute; discriminate). }
  eexists. vm_compute. reflexivity.
Qed.

(** C103, proved part: data with a period of 2 to 256 blocks, none of them zero and no two of them with the same slot,
    takes 13 bits per block after the first period. *)
Theorem C103_periodic_partial : forall e iaddr oaddr p k out olen n m,
  Forall (fun b => is_bytes b /\ length b = 8%nat /\ b <> repeat 0 8) p -> (2 <= length p <= 256)%nat ->
  NoDup (map (fun b => slot 8 (num b)) p) -> (1 <= k)%nat ->
  is_bytes out -> 0 <= olen <= lenZ out -> iaddr mod 8 = 0 -> oaddr mod 8 = 0 ->
  optsw842_compress e iaddr oaddr (concat (concat (repeat p k))) out olen = Done (0, n, m) ->
  n <= words64 (69 * Z.of_nat (length p) + 13 * (Z.of_nat (length p) * (Z.of_nat k - 1)) + 37).
Proof.
  intros e iaddr oaddr p k out olen n m HB HP HS Hk Ho Hc A1 A2 E.
  assert (H8 : Forall (fun b => length b = 8%nat /\ num b <> 0) p).
  { eapply Forall_impl; [|exact HB]. intros b (B & L & N). split; auto. intros X. apply N. now apply zero_block. }
  set (x := concat (concat (repeat p k))) in *.
  assert (LX : lenZ x = 8 * Z.of_nat (length (concat (repeat p k)))).
  { unfold x, lenZ. rewrite concat_len8; [lia|]. eapply Forall_impl; [|exact (period_all p k H8)]. intros b [X _]; exact X. }
  assert (LP : length (concat (repeat p k)) = (k * length p)%nat) by apply period_len.
  assert (BX : is_bytes x).
  { unfold x. clear - HB. induction k as [|k IH]; [constructor|]. cbn [repeat concat]. rewrite concat_app. apply is_bytes_app. split; auto.
    clear IH. induction HB as [|b p (B & _) _ IH]; [constructor|]. cbn [concat]. apply is_bytes_app. auto. }
  assert (HM : lenZ x mod 8 = 0) by (rewrite LX, Z.mul_comm; apply Z.mod_mul; lia).
  assert (HN : x <> []). { intros X. rewrite X in LX. change (lenZ []) with 0 in LX. nia. }
  destruct (C102_size e iaddr oaddr x out olen BX Ho Hc A1 A2 HM HN) as [S F].
  destruct (Z.le_gt_cases (words64 (opt_size x)) olen) as [C|C].
  2:{ destruct (F C) as (m' & E'). rewrite E in E'. discriminate. }
  destruct (S C) as (m' & E'). rewrite E in E'. injection E' as -> _.
  destruct (period_opt_size p k H8 HP HS) as [B|B]; [|lia]. fold x in B. rewrite LP in B.
  unfold words64. apply Z.mul_le_mono_nonneg_l; [lia|]. apply Z.div_le_mono; nia.
Qed.
Print Assumptions C103_periodic_partial.
Definition period : list (list Z) := [[1; 2; 3; 4; 5; 6; 7; 8]; [9; 8; 7; 6; 5; 4; 3; 2]; [7; 7; 7; 7; 8; 8; 8; 8]].
Example C103_periodic_case : Forall (fun b => is_bytes b /\ length b = 8%nat /\ b <> repeat 0 8) period /\
  NoDup (map (fun b => slot 8 (num b)) period) /\
  exists m, optsw842_compress LE 0 0 (concat (concat (repeat period 5))) (List.repeat 0 64) 64 = Done (0, words64 (69 * 3 + 13 * (3 * 4) + 37), m).
Proof.
  split. { repeat (apply Forall_cons; [split; [isb|split; [reflexivity|discriminate]]|]). constructor. }
  split. { vm_compute. repeat constructor; cbn; intuition discriminate. }
  eexists. vm_compute. reflexivity.
Qed.

(** C103, refuted: a block that recurs every second block is not found, however often, if zero blocks are between. The zero
    block is entered in the slots of the block before it. sw842_compress takes 18 bits for such a pair, optsw842_compress 74. *)
Theorem C103_zeros_between_refuted : forall e A k out olen n m,
  length A = 8%nat -> is_bytes A -> Forall (fun v => v <> 0) (pieces_of 2 A) -> (1 <= k)%nat ->
  is_bytes out -> words64 (74 * Z.of_nat k + 37) <= olen <= lenZ out ->
  let x := concat (repeat (A ++ repeat 0 8) k) in
  sw842_compress e 0 x out olen = Done (0, n, m) ->
  n <= words64 (18 * Z.of_nat k + 93) /\
  exists m', optsw842_compress e 0 0 x out olen = Done (0, words64 (74 * Z.of_nat k + 37), m').
Proof.
  intros e A k out olen n m LA BA NA Hk Ho Hc x E.
  assert (W : 0 <= words64 (74 * Z.of_nat k + 37)) by (unfold words64; apply Z.mul_nonneg_nonneg; [lia|]; apply Z.div_pos; lia).
  pose proof (hide_nz A LA BA NA) as NZ. split.
  - eapply (alt_sw A LA BA NZ e 0 k); eauto; lia.
  - pose proof (hide_opt_size A LA BA NA k) as S. fold x in S. rewrite <- S in *.
    assert (LX : length x = (16 * k)%nat) by (apply (alt_len A LA)).
    refine (proj1 (C102_size e 0 0 x out olen _ Ho _ eq_refl eq_refl _ _) _); try lia.
    + apply (alt_bytes A LA BA).
    + unfold lenZ. rewrite LX. replace (Z.of_nat (16 * k)) with (2 * Z.of_nat k * 8) by lia. apply Z.mod_mul. lia.
    + intros X. rewrite X in LX. cbn in LX. lia.
Qed.
Print Assumptions C103_zeros_between_refuted.
Example C103_case : let A := [1; 2; 3; 4; 5; 6; 7; 8] in
  is_bytes A /\ Forall (fun v => v <> 0) (pieces_of 2 A) /\
  exists m m', sw842_compress LE 0 (concat (repeat (A ++ repeat 0 8) 6)) (List.repeat 0 64) 64 = Done (0, 32, m) /\
    optsw842_compress LE 0 0 (concat (repeat (A ++ repeat 0 8) 6)) (List.repeat 0 64) 64 = Done (0, 64, m').
Proof.
  split; [isb|]. split; [repeat constructor; discriminate|]. do 2 eexists. split; vm_compute; reflexivity.
Qed.
