(** What the statements about the cryptodev back end (hw842) need. *)
From Coq Require Import ZArith List Bool.
From Verif Require Import SpecBits CBase SpecCalls ChunkedModel SpecChunked CryptodevModel.
Import ListNotations.
Open Scope Z_scope.

(** For every chunk to be processed the result is that of the single call [f]; nothing else changes. *)
Definition done_as_single (f : chunk_func) (n : Z) (rets : list Z) (iaddr : Z) (inp : list Z) (istride : Z) (ilens : list Z)
  (oaddr : Z) (out : list Z) (ostride : Z) (olens rets' olens' out' : list Z) : Prop :=
  (forall j, live n ilens j ->
     single f iaddr inp istride ilens oaddr out ostride olens j = Done (seen rets' olens' out' ostride j)) /\
  (forall j, (j < Z.to_nat n)%nat -> nth j ilens 0 = SIZE_MAX -> nth j rets' 0 = nth j rets 0 /\ nth j olens' 0 = nth j olens 0) /\
  length rets' = length rets /\ length olens' = length olens /\ length out' = length out /\
  (forall k, (forall j, live n ilens j -> ~ (Z.of_nat j * ostride <= Z.of_nat k < Z.of_nat j * ostride + nth j olens 0)) ->
     nth k out' 0 = nth k out 0).
Definition all_defined (f : chunk_func) (n iaddr : Z) (inp : list Z) (istride : Z) (ilens : list Z) (oaddr : Z) (out : list Z) (ostride : Z) (olens : list Z) : Prop :=
  forall j, live n ilens j -> exists v, single f iaddr inp istride ilens oaddr out ostride olens j = Done v.

(** What the driver is expected to do with a request for operation [op]: the n chunks are [len/n] and [dlen/n] bytes
    apart, the length 2^32-1 means that a chunk is to be skipped, and each other chunk is processed as [f] does. *)
Definition wide_len (l : Z) : Z := if l =? UINT32_MAX then SIZE_MAX else l.
Definition good_driver (f : chunk_func) (op max_chunks : Z) (drv : driver) : Prop :=
  forall q iaddr inp oaddr out rets istride ostride, let n := q_num q in let ilens := map wide_len (q_lens q) in let olens := q_dlens q in
  q_op q = op -> 0 <= n <= max_chunks -> q_len q = istride * n -> q_len q <= UINT32_MAX -> q_dlen q = ostride * n -> q_dlen q <= UINT32_MAX ->
  Forall (fun l => 0 <= l <= UINT32_MAX) (q_lens q) -> Forall (fun l => 0 <= l <= UINT32_MAX) olens -> is_bytes inp -> is_bytes out ->
  areas n rets inp istride ilens out ostride olens -> all_defined f n iaddr inp istride ilens oaddr out ostride olens ->
  exists olens' rets' out', drv q iaddr inp oaddr out rets = Done (0, olens', rets', out') /\
    done_as_single f n rets iaddr inp istride ilens oaddr out ostride olens rets' olens' out'.

(** The limits of the interface.  Buffers are aligned to [mask] + 1 bytes. *)
Definition accepted (max_chunks mask n iaddr istride : Z) (ilens : list Z) (oaddr ostride : Z) (olens : list Z) : Prop :=
  iaddr mod (mask + 1) = 0 /\ oaddr mod (mask + 1) = 0 /\
  n <= max_chunks /\ n * istride < 2 ^ 32 /\ n * ostride < 2 ^ 32 /\
  forall j, (j < Z.to_nat n)%nat -> (nth j ilens 0 = 2 ^ 64 - 1 \/ nth j ilens 0 < 2 ^ 32 - 1) /\ nth j olens 0 < 2 ^ 32.

(** Arguments of a call: size_t values, an array entry for every chunk, addresses with room behind them. *)
Definition arguments (mask n iaddr istride : Z) (ilens : list Z) (oaddr ostride : Z) (olens : list Z) : Prop :=
  (exists k, 0 <= k <= 16 /\ mask = 2 ^ k - 1) /\ 0 <= iaddr < 2 ^ 64 - 2 ^ 16 /\ 0 <= oaddr < 2 ^ 64 - 2 ^ 16 /\
  0 <= n <= SIZE_MAX /\ 0 <= istride <= SIZE_MAX /\ 0 <= ostride <= SIZE_MAX /\ lenZ ilens = n /\ lenZ olens = n /\
  Forall (fun l => 0 <= l <= SIZE_MAX) ilens /\ Forall (fun l => 0 <= l <= SIZE_MAX) olens.

(** Thread [t] has its context. *)
Definition ready (t mask : Z) (p : process) : Prop :=
  p_once p = true /\ p_key p = true /\ p_key_err p = 0 /\ exists c, tss_find t (p_tss p) = Some c /\ ctx_mask c = Some mask.

(** ** Histories *)
(** What threads do: call one of the functions, or end. *)
Inductive event := Call (t : Z) | Exit (t : Z).
(** The process after a history; [info] as in c842_ctx_init. *)
Inductive history (info : option Z) (p0 : process) : list event -> process -> Prop :=
| h_start : history info p0 [] p0
| h_call : forall h p t r c p', history info p0 h p -> get_thread_cryptodev_ctx info t p = Done (r, c, p') -> history info p0 (h ++ [Call t]) p'
| h_exit : forall h p t, history info p0 h p -> history info p0 (h ++ [Exit t]) (thread_exit t p).
(** The process before its first call. *)
Definition fresh (script : list Z) (fd : Z) : process := mkP false false 0 [] (mkOS script [] fd 0).
(** The threads that have called and not ended since. *)
Fixpoint alive (h : list event) (t : Z) : Prop :=
  match h with
  | [] => False
  | Call u :: h => (u = t /\ ~ In (Exit t) h) \/ alive h t
  | Exit u :: h => alive h t
  end.

(** A driver that runs the chunked function [g] of the library on the request. *)
Definition soft_driver (op : Z) (g : chunked_func) : driver := fun q iaddr inp oaddr out rets =>
  if q_op q =? op then
    '(_, rets, olens, out) <- g (q_num q) rets iaddr inp (q_len q / q_num q) (map wide_len (q_lens q)) oaddr out (q_dlen q / q_num q) (q_dlens q) ;;
    Done (0, olens, rets, out)
  else Done (EINVAL, q_dlens q, rets, out).
