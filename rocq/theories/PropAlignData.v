(** C23, what is true of it for every input: the alignment may decide whether optsw842_decompress accepts a buffer, but never
    what it delivers. *)
From Coq Require Import ZArith List Bool Lia.
From Verif Require Import SpecBits SpecCrc Spec842 SpecCalls CBase BitsLemmas SerialDecompModel SerialProps OptDecompModel OptProps
  CudaProofs AgreeProps PropSerial PropOpt.
Import ListNotations.
Open Scope Z_scope.

Lemma words_valid inp x : valid_842 false (firstn (8 * (length inp / 8)) inp) x -> valid_842 true inp x.
Proof.
  intros (rest & H). set (k := (8 * (length inp / 8))%nat) in *. exists (rest ++ bytes_bits (skipn k inp)).
  rewrite <- (firstn_skipn k inp) at 1. rewrite bytes_bits_app, app_assoc. apply stream_more. eapply stream_any; [exact H|discriminate].
Qed.
Lemma any_accepts e iaddr oaddr inp out olen x : is_bytes inp -> is_bytes out -> 0 <= olen <= lenZ out -> olen < 2 ^ 63 ->
  observed (optsw842_decompress e iaddr oaddr inp out olen) = Done (0, lenZ x, x) ->
  valid_842 true inp x /\ lenZ x <= olen.
Proof.
  intros Hi Ho Hl H63 H. destruct (al iaddr oaddr) eqn:A.
  - apply al_true in A. apply C20_optsw842_decompress_exact in H; try tauto. destruct H. split; auto. now apply words_valid.
  - rewrite odecomp_unaligned in H by auto. apply C05_sw842_decompress_exact in H; auto. tauto.
Qed.

(** C23: two calls for the same bytes at any addresses and with any capacities, both successful, deliver the same data. *)
Theorem C23_decompress_same_data : forall e e' iaddr oaddr iaddr' oaddr' inp out out' olen olen' x x',
  is_bytes inp -> is_bytes out -> is_bytes out' -> 0 <= olen <= lenZ out -> 0 <= olen' <= lenZ out' -> olen < 2 ^ 63 -> olen' < 2 ^ 63 ->
  observed (optsw842_decompress e iaddr oaddr inp out olen) = Done (0, lenZ x, x) ->
  observed (optsw842_decompress e' iaddr' oaddr' inp out' olen') = Done (0, lenZ x', x') ->
  x = x'.
Proof.
  intros e e' iaddr oaddr iaddr' oaddr' inp out out' olen olen' x x' Hi Ho Ho' H1 H2 H3 H4 A B.
  apply any_accepts in A; auto. apply any_accepts in B; auto. eapply C47_format_unambiguous; [apply A|apply B].
Qed.
Print Assumptions C23_decompress_same_data.

(** C23: whatever is accepted in aligned buffers (up to UINT_MAX bytes, see C46) is accepted in all others, with the same data. *)
Theorem C23_aligned_success : forall e e' iaddr oaddr iaddr' oaddr' inp out out' olen x,
  is_bytes inp -> is_bytes out -> is_bytes out' -> 0 <= olen <= lenZ out -> olen <= lenZ out' -> olen < 2 ^ 63 ->
  iaddr mod 8 = 0 -> oaddr mod 8 = 0 -> lenZ x <= UINT_MAX ->
  observed (optsw842_decompress e iaddr oaddr inp out olen) = Done (0, lenZ x, x) ->
  observed (optsw842_decompress e' iaddr' oaddr' inp out' olen) = Done (0, lenZ x, x).
Proof.
  intros e e' iaddr oaddr iaddr' oaddr' inp out out' olen x Hi Ho Ho' H1 H2 H3 A B U H.
  apply C20_optsw842_decompress_exact in H; auto. destruct H as [V L].
  destruct (al iaddr' oaddr') eqn:A'.
  - apply al_true in A'. apply C20_optsw842_decompress_exact; try tauto; lia.
  - rewrite odecomp_unaligned by auto. apply C05_sw842_decompress_exact; auto; [lia|]. split; [now apply words_valid|lia].
Qed.
Print Assumptions C23_aligned_success.
(** A stream of three words with two more bytes behind it, at both alignments. *)
Example C23_data_case :
  observed (optsw842_decompress LE 0 0 (osample_z ++ [1; 2]) (obuf 64) 64) = Done (0, lenZ osample, osample) /\
  observed (optsw842_decompress BE 3 0 (osample_z ++ [1; 2]) (obuf 64) 60) = Done (0, lenZ osample, osample).
Proof. vm_compute. auto. Qed.
