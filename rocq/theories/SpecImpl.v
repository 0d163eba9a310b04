(** What the statements about the implementation descriptors need. *)
From Coq Require Import ZArith List Bool.
From Verif Require Import SpecBits CBase SpecCalls ChunkedModel CryptodevModel ImplModel.
Import ListNotations.
Open Scope Z_scope.

(** A buffer at address [addr] that was allocated with aligned_alloc(alignment, ...). *)
Definition aligned_to (alignment addr : Z) : Prop := exists q, addr = q * alignment.

(** Whoever allocates with the preferred alignment, and puts the chunks at distances which are multiples of the
    required alignment, has all chunks aligned as required. *)
Definition preferred_suffices (a : alignments) : Prop :=
  forall buffer stride i, aligned_to (preferred_alignment a) buffer -> aligned_to (required_alignment a) stride ->
  aligned_to (required_alignment a) (buffer + i * stride).

(** What threads do: ask for the descriptor, call one of the functions, or end. *)
Inductive event2 := Get (t : Z) | Use (t : Z) | End (t : Z).
(** Histories: the events, with the descriptor each [Get] returned, the static variable and the process afterwards. *)
Inductive history2 (pagesize : Z) (info : option Z) (p0 : process) : list (event2 * alignments) -> alignments -> process -> Prop :=
| g_start : history2 pagesize info p0 [] (mkA 0 0) p0
| g_get : forall h a p t a' p', history2 pagesize info p0 h a p -> get_hw842_implementation pagesize info t a p = Done (a', p') ->
    history2 pagesize info p0 (h ++ [(Get t, a')]) a' p'
| g_use : forall h a p t r c p', history2 pagesize info p0 h a p -> get_thread_cryptodev_ctx info t p = Done (r, c, p') ->
    history2 pagesize info p0 (h ++ [(Use t, a)]) a p'
| g_end : forall h a p t, history2 pagesize info p0 h a p -> history2 pagesize info p0 (h ++ [(End t, a)]) a (thread_exit t p).

(** What a function of the operating system has to guarantee to be called chunk by chunk: its result depends only on the
    input, the addresses, the capacity and the old content of that part of the output; it changes nothing beyond. *)
Definition well_behaved (f : chunk_func) : Prop :=
  (forall a b ib out out' cap, is_bytes ib -> is_bytes out -> is_bytes out' ->
    0 <= cap <= lenZ out -> cap <= lenZ out' -> cap < 2 ^ 63 -> firstn (Z.to_nat cap) out = firstn (Z.to_nat cap) out' ->
    observed (f a b ib out cap) = observed (f a b ib out' cap)) /\
  (forall a b ib out cap r n m, is_bytes ib -> is_bytes out -> 0 <= cap <= lenZ out -> cap < 2 ^ 63 ->
    f a b ib out cap = Done (r, n, m) ->
    0 <= n <= cap /\ is_bytes m /\ length m = length out /\ skipn (Z.to_nat cap) m = skipn (Z.to_nat cap) out).
