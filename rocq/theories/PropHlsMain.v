(** Property of the program of the FPGA front end: C104.

    Reading the statements: [transfer bl] is an input of 16-byte blocks, [tokens bits ts] says that the bits are the tokens [ts]
    (SpecTokens.v); [hls_main inp = Done (ls, left)]: the program ended, printed for each token the opcode and the number that its argument bits
    are, and left [left] in the stream of tokens. *)
From Coq Require Import ZArith List Bool Lia.
From Verif Require Import SpecBits SpecCrc Spec842 SpecTokens CBase BitsLemmas HlsModel HlsMainModel HlsProofs PropHls.
Import ListNotations.
Open Scope Z_scope.

Lemma tokens_sizes bits ts : tokens bits ts -> Forall (fun t => 0 <= fst t < 32 /\ length (snd t) = args_bits (fst t)) ts.
Proof.
  assert (E : Forall (fun t : token => 0 <= fst t < 32 /\ length (snd t) = args_bits (fst t)) [(0x1e, [])]).
  { constructor; [split; [cbn [fst]; lia|reflexivity]|constructor]. }
  intros T. induction T; auto.
Qed.
Lemma show_wire op pay : 0 <= op < 32 -> length pay = args_bits op -> show_token (on_wire (op, pay)) = Done (op, val pay).
Proof.
  intros O L. destruct (parameter_length op O) as [P Q]. unfold show_token, TOKEN_WIDTH, OP_BITS, OUTPUT_STREAM_WIDTH.
  set (z := on_wire (op, pay)).
  assert (E : z = op * 2 ^ 64 + val pay * 2 ^ (64 - Z.of_nat (args_bits op)) /\ 0 <= val pay * 2 ^ (64 - Z.of_nat (args_bits op)) < 2 ^ 64).
  { unfold z, on_wire, token_bits. cbn [fst snd]. rewrite !val_app, !repeat_length, app_length, bits_of_length, val_bits_of.
    assert (Z0 : val (List.repeat false (69 - (5 + length pay))) = 0).
    { rewrite <- (bits_of_0 (69 - (5 + length pay))), val_bits_of. apply Z.mod_0_l. apply Z.pow_nonzero; lia. }
    rewrite Z0. pose proof (val_bound pay) as V. rewrite L in *.
    replace (Z.of_nat (69 - (5 + args_bits op))) with (64 - Z.of_nat (args_bits op)) by lia.
    change (2 ^ Z.of_nat 5) with 32. rewrite (Z.mod_small op) by lia.
    assert (S64 : 2 ^ 64 = 2 ^ Z.of_nat (args_bits op) * 2 ^ (64 - Z.of_nat (args_bits op))) by (rewrite <- Z.pow_add_r by lia; f_equal; lia).
    assert (0 < 2 ^ (64 - Z.of_nat (args_bits op))) by (apply Z.pow_pos_nonneg; lia).
    split; [rewrite S64; ring|]. split; [apply Z.mul_nonneg_nonneg; lia|]. rewrite S64. apply Z.mul_lt_mono_pos_r; lia. }
  destruct E as [E B].
  rewrite range_get_ok by lia. cbn [bind]. change (69 - 5) with 64. change (69 - 1 - 64 + 1) with 5.
  assert (D1 : z / 2 ^ 64 mod 2 ^ 5 = op).
  { rewrite E, Z.add_comm, Z.div_add by (apply Z.pow_nonzero; lia). rewrite Z.div_small by lia. apply Z.mod_small. change (2 ^ 5) with 32. lia. }
  rewrite D1, range_get_ok by lia. cbn [bind]. change (64 - 1 - 0 + 1) with 64. rewrite Z.pow_0_r, Z.div_1_r, Z.mod_mod by (apply Z.pow_nonzero; lia).
  assert (D2 : z mod 2 ^ 64 = val pay * 2 ^ (64 - Z.of_nat (args_bits op))).
  { rewrite E, Z.add_comm, Z_mod_plus_full. now apply Z.mod_small. }
  rewrite D2, P, Z.shiftr_div_pow2, Z.div_mul by (try apply Z.pow_nonzero; lia). reflexivity.
Qed.
Lemma show_wired ts : ts <> [] -> Forall (fun t => 0 <= fst t < 32 /\ length (snd t) = args_bits (fst t)) ts ->
  show_loop (wired ts) = Done (map (fun t => (fst t, val (snd t))) ts, []).
Proof.
  induction ts as [|[op pay] ts IH]; [congruence|]. intros _ F. apply Forall_cons_iff in F. cbn [fst snd] in F. destruct F as [[O L] F].
  cbn [wired show_loop map fst snd]. rewrite show_wire by auto. cbn [bind].
  destruct ts as [|t ts]; [reflexivity|]. rewrite IH by (auto; discriminate). reflexivity.
Qed.

(** C104: for every transfer, well-formed or not, the program ends, prints the opcode and the arguments of exactly the tokens of the
    bits of the transfer, in their order, and leaves no token unread. *)
Theorem C104_program_prints_tokens : forall bl follow, bl <> [] -> Forall (fun b => length b = 16%nat /\ is_bytes b) bl ->
  exists ts, tokens (bytes_bits (concat bl)) ts /\
    hls_main (transfer bl ++ follow) = Done (map (fun t => (fst t, val (snd t))) ts, []).
Proof.
  intros bl follow NE F. destruct (hls_tokens bl follow NE F) as (ts & k & T & E). exists ts. split; [exact T|].
  unfold hls_main. rewrite E. cbn [bind]. apply show_wired; [exact (tokens_nonempty _ _ T)|exact (tokens_sizes _ _ T)].
Qed.
Print Assumptions C104_program_prints_tokens.
(** So what it prints determines the tokens: two transfers with the same lines have the same tokens. *)
Theorem C104_lines_determine_tokens : forall bl bl' ts ts' out, bl <> [] -> bl' <> [] ->
  Forall (fun b => length b = 16%nat /\ is_bytes b) bl -> Forall (fun b => length b = 16%nat /\ is_bytes b) bl' ->
  tokens (bytes_bits (concat bl)) ts -> tokens (bytes_bits (concat bl')) ts' ->
  hls_main (transfer bl) = Done out -> hls_main (transfer bl') = Done out -> ts = ts'.
Proof.
  intros bl bl' ts ts' out NE NE' F F' T T' H H'.
  destruct (C104_program_prints_tokens bl [] NE F) as (us & U & E). destruct (C104_program_prints_tokens bl' [] NE' F') as (us' & U' & E').
  rewrite app_nil_r in E, E'. pose proof (tokens_unique _ _ T _ U). pose proof (tokens_unique _ _ T' _ U'). subst us us'.
  assert (M : map (fun t => (fst t, val (snd t))) ts = map (fun t => (fst t, val (snd t))) ts') by congruence.
  clear - M T T'. apply tokens_sizes in T, T'. revert ts' T' M. induction ts as [|[op pay] ts IH]; intros [|[op' pay'] ts'] T' M; try discriminate; [reflexivity|].
  cbn [map fst snd] in M. assert (op = op') by congruence. assert (V : val pay = val pay') by congruence. assert (M' : map (fun t => (fst t, val (snd t))) ts = map (fun t => (fst t, val (snd t))) ts') by congruence.
  apply Forall_cons_iff in T, T'. cbn [fst snd] in T, T'. destruct T as [[_ L] T], T' as [[_ L'] T']. subst op'.
  f_equal; [f_equal; apply val_inj; [congruence|exact V]|exact (IH T ts' T' M')].
Qed.
Print Assumptions C104_lines_determine_tokens.
(** The program with its own input: eight literal bytes, "00112233" in ASCII, and the end. *)
Example C104_case : hls_main hls_main_input = Done ([(0, 0x3030313132323333); (0x1e, 0)], []) /\
  hls_main_input = transfer [[0x01; 0x81; 0x81; 0x89; 0x89; 0x91; 0x91; 0x99; 0x9f; 0x80; 0; 0; 0; 0; 0; 0]].
Proof. split; vm_compute; reflexivity. Qed.
Example C104_all_ops : exists ls, hls_main (transfer all_ops_bl) = Done (ls, []) /\ length ls = 29%nat.
Proof. eexists. split; vm_compute; reflexivity. Qed.
