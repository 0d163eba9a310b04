(** Properties of the FPGA front end: C63, C64.

    Reading the statements: [transfer bl ++ follow] is the input stream of 128-bit elements: one transfer,
    made of the 16-byte blocks [bl], and whatever follows it; [tokens bits ts] says that
    the bits are the tokens [ts]; [wired ts] are the tokens as 69-bit words with the flag "last"
    (SpecTokens.v).  [opcode_tokenizer inp = Done (out, left)]: it wrote [out] and left [left] unread;
    it is not [Done] when it would wait for ever for input. *)
From Coq Require Import ZArith List Bool Lia.
From Verif Require Import SpecBits SpecCrc Spec842 SpecTokens CBase OptDecompModel HlsModel HlsProofs OptProps AgreeProps PropOptimal.
Import ListNotations.
Open Scope Z_scope.

Ltac isb := repeat constructor; unfold is_byte; lia.
Fixpoint blocks16 (n : nat) (l : list Z) : list (list Z) := match n with O => [] | S n => firstn 16 l :: blocks16 n (skipn 16 l) end.

(** C63: for every transfer, well-formed or not, the tokenizer ends, never waits for more than the transfer
    and delivers exactly the tokens of the bits of the transfer. *)
Theorem C63_hls_tokens : forall bl follow, bl <> [] -> Forall (fun b => length b = 16%nat /\ is_bytes b) bl ->
  exists ts k, tokens (bytes_bits (concat bl)) ts /\
    opcode_tokenizer (transfer bl ++ follow) = Done (wired ts, transfer (skipn k bl) ++ follow).
Proof. exact hls_tokens. Qed.
Print Assumptions C63_hls_tokens.
(** The tokens of some bits are determined. *)
Theorem C63_tokens_unique : forall bits ts ts', tokens bits ts -> tokens bits ts' -> ts = ts'.
Proof. exact (fun bits ts ts' H H' => tokens_unique bits ts H ts' H'). Qed.
Print Assumptions C63_tokens_unique.
(** The tokens of a hardware stream are a stream for the same data. *)
Theorem C63_hls_stream : forall bl follow x rest, bl <> [] -> Forall (fun b => length b = 16%nat /\ is_bytes b) bl ->
  stream false [] (bytes_bits (concat bl)) x rest ->
  exists ts k, stream false [] (tokens_bits ts) x [] /\
    opcode_tokenizer (transfer bl ++ follow) = Done (wired ts, transfer (skipn k bl) ++ follow).
Proof. exact hls_stream. Qed.
Print Assumptions C63_hls_stream.
(** A transfer in which all templates occur; and one that stops inside of a token. *)
Definition all_ops_bl : list (list Z) := blocks16 10 (firstn 160 (all_ops_z ++ List.repeat 0 16)).
Example C63_case : Forall (fun b => length b = 16%nat /\ is_bytes b) all_ops_bl /\
  (exists rest, stream false [] (bytes_bits (concat all_ops_bl)) all_ops_x rest) /\
  (exists out, opcode_tokenizer (transfer all_ops_bl ++ [(7, true)]) = Done (out, [(7, true)]) /\ length out = 29%nat).
Proof.
  split; [|split].
  - repeat constructor; try (unfold is_byte; lia).
  - destruct (proj1 (proj1 (c20 LE 0 0 (concat all_ops_bl) (List.repeat 0 400) 400 all_ops_x ltac:(isb) ltac:(isb)
      ltac:(vm_compute; intuition discriminate) eq_refl eq_refl eq_refl) ltac:(vm_compute; reflexivity))) as (rest & H). eexists. exact H.
  - eexists. split; vm_compute; reflexivity.
Qed.
Example C63_case_cut : opcode_tokenizer [(0x00f0debc9a7856341200, true); (7, true)] = Done (wired [(0, bits_of 64 0x2468acf13579bde); (0x1e, [])], [(7, true)]).
Proof. vm_compute. reflexivity. Qed.

(** C64: a transfer that carries a hardware stream, its CRC and less than 16 bytes of padding is
    consumed completely: the next call starts with the next transfer. *)
Theorem C64_hls_consumes_transfer_partial : forall bl follow x pad, bl <> [] -> Forall (fun b => length b = 16%nat /\ is_bytes b) bl ->
  stream false [] (bytes_bits (concat bl)) x (bits_of 32 (crc32 x) ++ pad) -> (length pad < 128)%nat ->
  exists ts, stream false [] (tokens_bits ts) x [] /\ opcode_tokenizer (transfer bl ++ follow) = Done (wired ts, follow).
Proof. exact hls_consumed. Qed.
Print Assumptions C64_hls_consumes_transfer_partial.
Definition twice_bl : list (list Z) := blocks16 2 (twice_z ++ List.repeat 0 8).
Example C64_case : Forall (fun b => length b = 16%nat /\ is_bytes b) twice_bl /\
  stream false [] (bytes_bits (concat twice_bl)) twice (bits_of 32 (crc32 twice) ++ List.repeat false 104).
Proof.
  split. { repeat constructor; unfold is_byte; lia. }
  replace (bytes_bits (concat twice_bl)) with (bits_of 5 0 ++ bytes_bits [1; 2; 3; 4; 5; 6; 7; 8] ++ bits_of 5 4 ++ bytes_bits [9; 8; 7; 6] ++
    bits_of (index_bits 4) 0 ++ bits_of 5 0x1e ++ bits_of 32 (crc32 twice) ++ List.repeat false 104) by (vm_compute; reflexivity).
  eapply (st_template false [] 0 [D 8]); [lia|reflexivity|apply args_data; [reflexivity|isb|apply args_nil]|].
  eapply (st_template false _ 4 [D 4; I 4]); [lia|reflexivity|
    apply args_data; [reflexivity|isb|eapply (args_index _ 4 0 0); [cbn; lia|unfold refers, window; cbn; lia|apply args_nil]]|].
  apply st_end.
Qed.
(** In general: of a transfer that carries a hardware stream and any bits [rest] behind it (CRC and padding), exactly so many elements are left
    unread, and none exactly if there are fewer than 261 such bits, that is fewer than 229 bits behind the CRC. *)
Theorem C64_unread_elements : forall bl follow x rest, bl <> [] -> Forall (fun b => length b = 16%nat /\ is_bytes b) bl ->
  stream false [] (bytes_bits (concat bl)) x rest ->
  exists ts k, stream false [] (tokens_bits ts) x [] /\
    opcode_tokenizer (transfer bl ++ follow) = Done (wired ts, transfer (skipn k bl) ++ follow) /\
    length (skipn k bl) = ((length rest - 133) / 128)%nat /\ (skipn k bl = [] <-> (length rest < 261)%nat).
Proof.
  intros bl follow x rest NE F H. destruct (hls_unread bl follow x rest NE F H) as (ts & k & A & B & C). exists ts, k.
  split; [exact A|]. split; [exact B|]. split; [exact C|].
  rewrite <- length_zero_iff_nil, C, Nat.div_small_iff by lia. lia.
Qed.
Print Assumptions C64_unread_elements.
(** Not so with more padding: what is left then is taken for the next transfer. *)
Theorem C64_hls_long_padding_refuted : exists bl x pad, Forall (fun b => length b = 16%nat /\ is_bytes b) bl /\
  stream false [] (bytes_bits (concat bl)) x (bits_of 32 (crc32 x) ++ pad) /\
  exists out left, opcode_tokenizer (transfer bl) = Done (out, left) /\ left <> [].
Proof.
  exists (blocks16 3 (0xf0 :: List.repeat 0 47)), [], (List.repeat false 347). split; [|split].
  - repeat constructor; unfold is_byte; lia.
  - replace (bytes_bits (concat (blocks16 3 (0xf0 :: List.repeat 0 47)))) with (bits_of 5 0x1e ++ bits_of 32 (crc32 []) ++ List.repeat false 347)
      by (vm_compute; reflexivity). apply st_end.
  - eexists _, _. split; [vm_compute; reflexivity|discriminate].
Qed.
Print Assumptions C64_hls_long_padding_refuted.
(** 384 bits, of which the end takes 5: of 379 bits behind it one element is left; with two blocks there are 251, and none is left. *)
Example C64_unread_case : stream false [] (bytes_bits (concat (blocks16 3 (0xf0 :: List.repeat 0 47)))) [] (List.repeat false 379) /\
  stream false [] (bytes_bits (concat (blocks16 2 (0xf0 :: List.repeat 0 31)))) [] (List.repeat false 251) /\
  opcode_tokenizer (transfer (blocks16 3 (0xf0 :: List.repeat 0 47))) = Done (wired [(0x1e, [])], [(0, true)]) /\
  opcode_tokenizer (transfer (blocks16 2 (0xf0 :: List.repeat 0 31))) = Done (wired [(0x1e, [])], []).
Proof.
  split; [|split; [|split; vm_compute; reflexivity]].
  - replace (bytes_bits (concat (blocks16 3 (0xf0 :: List.repeat 0 47)))) with (bits_of 5 0x1e ++ List.repeat false 379) by (vm_compute; reflexivity). apply st_end.
  - replace (bytes_bits (concat (blocks16 2 (0xf0 :: List.repeat 0 31)))) with (bits_of 5 0x1e ++ List.repeat false 251) by (vm_compute; reflexivity). apply st_end.
Qed.
