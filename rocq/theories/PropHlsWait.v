(** C64, continued: the FPGA front end when the flag "last" never comes.  [element b] is a 128-bit element with the 16 bytes [b];
    none of the elements here is flagged, and nothing follows them.  [Undef] is a front end that waits for ever. *)
From Coq Require Import ZArith List Bool Lia.
From Verif Require Import SpecBits SpecCrc Spec842 SpecTokens CBase BitsLemmas HlsModel HlsProofs HlsWait CudaProofs PropHls.
Import ListNotations.
Open Scope Z_scope.

(** A complete stream without the flag: if fewer than 133 bits are behind its end, the front end waits for ever, although the end is there;
    otherwise it delivers the tokens of the stream, leaves what it did not read, and does not need the flag. *)
Theorem C64_missing_last : forall bl x rest, bl <> [] -> Forall (fun b => length b = 16%nat /\ is_bytes b) bl ->
  stream false [] (bytes_bits (concat bl)) x rest ->
  ((length rest < 133)%nat -> opcode_tokenizer (map (fun b => (element b, false)) bl) = Undef) /\
  ((133 <= length rest)%nat -> exists ts k, stream false [] (tokens_bits ts) x [] /\
     opcode_tokenizer (map (fun b => (element b, false)) bl) = Done (wired ts, map (fun b => (element b, false)) (skipn k bl)) /\
     length (skipn k bl) = ((length rest - 133) / 128)%nat).
Proof.
  intros bl x rest NE F H. set (b := List.repeat 0 16).
  assert (F' : Forall (fun b => length b = 16%nat /\ is_bytes b) (bl ++ [b])).
  { apply Forall_app. split; [exact F|]. constructor; [|constructor]. split; [reflexivity|isb]. }
  assert (LB : length (bytes_bits b) = 128%nat) by (rewrite bytes_bits_length; reflexivity).
  assert (H' : stream false [] (bytes_bits (concat (bl ++ [b]))) x (rest ++ bytes_bits b)).
  { rewrite concat_app, bytes_bits_app. cbn [concat]. rewrite app_nil_r. now apply stream_more. }
  destruct (hls_unread (bl ++ [b]) [] x _ ltac:(destruct bl; discriminate) F' H') as (ts & k & HS & E & L).
  rewrite !app_nil_r, transfer_snoc in E. apply tokenizer_unflagged in E; [|exact NE]. rewrite app_length, LB in L.
  split; intros LR.
  - rewrite Nat.div_small in L by lia. apply length_zero_iff_nil in L. rewrite L in E. exact E.
  - assert (L' : length (skipn k (bl ++ [b])) = S ((length rest - 133) / 128)).
    { rewrite L. replace (length rest + 128 - 133)%nat with (length rest - 133 + 1 * 128)%nat by lia. rewrite Nat.div_add by lia. lia. }
    assert (K : (k <= length bl)%nat). { rewrite skipn_length, app_length in L'. cbn [length] in L'. lia. }
    assert (ES : skipn k (bl ++ [b]) = skipn k bl ++ [b]). { rewrite skipn_app. replace (k - length bl)%nat with 0%nat by lia. reflexivity. }
    rewrite ES in *. rewrite transfer_snoc in E. exists ts, k. split; [exact HS|].
    rewrite app_length in L'. cbn [length] in L'. split; [|lia].
    destruct (unflagged (skipn k bl) ++ [(element b, true)]) as [|u l] eqn:EU; [destruct (unflagged (skipn k bl)); discriminate|].
    destruct E as (left' & E1 & E2). rewrite <- EU in E1. apply app_inj_tail in E1. destruct E1 as [E1 _]. fold (unflagged bl) (unflagged (skipn k bl)). now rewrite E1.
Qed.
Print Assumptions C64_missing_last.
(** And with no element at all it waits, too. *)
Example C64_nothing_waits : opcode_tokenizer [] = Undef.
Proof. reflexivity. Qed.
(** One block with the end, its CRC and padding: 123 bits behind the end, it waits.  Two blocks: 251 bits, it does not. *)
Example C64_missing_last_case :
  stream false [] (bytes_bits (concat [0xf0 :: List.repeat 0 15])) [] (List.repeat false 123) /\
  opcode_tokenizer [(element (0xf0 :: List.repeat 0 15), false)] = Undef /\
  stream false [] (bytes_bits (concat [0xf0 :: List.repeat 0 15; List.repeat 0 16])) [] (List.repeat false 251) /\
  opcode_tokenizer [(element (0xf0 :: List.repeat 0 15), false); (0, false)] = Done (wired [(0x1e, [])], []).
Proof.
  split; [|split; [vm_compute; reflexivity|split; [|vm_compute; reflexivity]]].
  - replace (bytes_bits (concat [0xf0 :: List.repeat 0 15])) with (bits_of 5 0x1e ++ List.repeat false 123) by (vm_compute; reflexivity). apply st_end.
  - replace (bytes_bits (concat [0xf0 :: List.repeat 0 15; List.repeat 0 16])) with (bits_of 5 0x1e ++ List.repeat false 251) by (vm_compute; reflexivity). apply st_end.
Qed.
