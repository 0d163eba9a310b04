(** Model of /repo/src/cryptodev/842_interface.c: hw842_compress and its variants on top of a kernel driver. *)
From Coq Require Import ZArith List Bool.
From Verif Require Import CBase.
Import ListNotations.
Open Scope Z_scope.

(** <stdint.h>; used in 842_interface.c:157-169. *)
Definition UINT32_MAX : Z := 2 ^ 32 - 1.

(** struct crypt_op as far as lines 172-181 fill it in: op, len, dlen, numchunks, chunklens, chunkdlens.
    (src, dst and chunkrets are given to the driver beside it.) *)
Record crypt_op := mkQ { q_op : Z; q_len : Z; q_dlen : Z; q_num : Z; q_lens : list Z; q_dlens : list Z }.

(** ioctl(cfd, CIOCCRYPT, &cryp): the request, the address and content of the memory at src, at dst, and chunkrets.
    Result: 0 or errno, and the content of chunkdlens, chunkrets and the memory at dst. *)
Definition driver := crypt_op -> Z -> list Z -> Z -> list Z -> list Z -> outcome (Z * list Z * list Z * list Z).

(** 842_interface.c:117-122.  alignmask is an uint16_t, promoted to int and, complemented, to unsigned long. *)
Definition is_pointer_aligned (ptr alignmask : Z) : bool :=
  ptr =? Z.land (u64 (ptr + alignmask)) (2 ^ 64 - 1 - alignmask).

(** 842_interface.c:157-169: the loop over the chunks.  [None]: a size is too big.  The result
    is ilens32 and olens32 from [i] on. *)
Fixpoint narrow (fuel : nat) (i numchunks : Z) (ilens olens : list Z) : outcome (option (list Z * list Z)) :=
  if i <? numchunks then
    match fuel with
    | O => NoFuel
    | S f =>
      il <- aget ilens i ;;
      if (il >? UINT32_MAX - 1) && negb (il =? SIZE_MAX) then Done None
      else
        ol <- aget olens i ;;
        if ol >? UINT32_MAX then Done None
        else
          r <- narrow f (i + 1) numchunks ilens olens ;;
          match r with
          | None => Done None
          | Some (is, os) => Done (Some (u32 (if negb (il =? SIZE_MAX) then il else UINT32_MAX) :: is, u32 ol :: os))
          end
    end
  else Done (Some ([], [])).

(** 842_interface.c:189-190. *)
Fixpoint widen (fuel : nat) (i numchunks : Z) (olens32 olens : list Z) : outcome (list Z) :=
  if i <? numchunks then
    match fuel with
    | O => NoFuel
    | S f =>
      v <- aget olens32 i ;;
      olens <- aset olens i v ;;
      widen f (i + 1) numchunks olens32 olens
    end
  else Done olens.

(** 842_interface.c:124-193: c842_compress_chunked.  [alignmask] is ctx->alignmask, [max_chunks] CRYPTODEV_COMP_MAX_CHUNKS of
    the cryptodev header.  Result: return value, rets, olens, memory at out. *)
Definition c842_compress_chunked (drv : driver) (max_chunks alignmask op : Z)
  (numchunks : Z) (rets : list Z) (iaddr : Z) (inp : list Z) (istride : Z) (ilens : list Z)
  (oaddr : Z) (out : list Z) (ostride : Z) (olens : list Z) : outcome (Z * list Z * list Z * list Z) :=
  let reject := Done (- EINVAL, rets, olens, out) in
  if negb (alignmask =? 0) && negb (is_pointer_aligned iaddr alignmask) then reject
  else if negb (alignmask =? 0) && negb (is_pointer_aligned oaddr alignmask) then reject
  else if negb (numchunks =? 0) && (istride >? UINT32_MAX / numchunks) then reject
  else if negb (numchunks =? 0) && (ostride >? UINT32_MAX / numchunks) then reject
  else if numchunks >? max_chunks then reject
  else
    r <- narrow (S (Z.to_nat numchunks)) 0 numchunks ilens olens ;;
    match r with
    | None => reject
    | Some (ilens32, olens32) =>
      let cryp := mkQ op (u32 (u64 (istride * numchunks))) (u32 (u64 (ostride * numchunks))) numchunks ilens32 olens32 in
      '(err, olens32, rets, out) <- drv cryp iaddr inp oaddr out rets ;;
      if negb (err =? 0) then Done (- err, rets, olens, out)
      else
        olens <- widen (S (Z.to_nat numchunks)) 0 numchunks olens32 olens ;;
        Done (0, rets, olens, out)
    end.

(** 842_interface.c:195-202: c842_compress.  [cret] is the content of the uninitialised variable cret.
    Result: return value, *olen, memory at out. *)
Definition c842_compress (drv : driver) (max_chunks alignmask op cret : Z) (iaddr oaddr : Z) (inp out : list Z) (olen : Z)
  : outcome (Z * Z * list Z) :=
  '(ret, rets, olens, out) <- c842_compress_chunked drv max_chunks alignmask op 1 [cret] iaddr inp (lenZ inp) [lenZ inp] oaddr out olen [olen] ;;
  cret <- aget rets 0 ;;
  olen <- aget olens 0 ;;
  Done (if negb (ret =? 0) then ret else cret, olen, out).

(** ** The context of a thread *)
(** The system: [os_script] are the results of the calls to come (0: success, else errno; success when used up), [os_fds] the open descriptors of
    /dev/crypto, [os_next] the next descriptor, [os_mem] the number of blocks allocated with malloc. *)
Record os := mkOS { os_script : list Z; os_fds : list Z; os_next : Z; os_mem : Z }.
(** The result of the next call of the operating system. (No counterpart in /repo: open, fcntl, ioctl and close of 842_interface.c:41-91.) *)
Definition os_call (w : os) : Z * os :=
  match os_script w with
  | [] => (0, w)
  | r :: s => (r, mkOS s (os_fds w) (os_next w) (os_mem w))
  end.
(** open("/dev/crypto") (842_interface.c:36-94). *)
Definition os_open (w : os) : (Z * Z) * os :=
  let '(r, w) := os_call w in
  if r =? 0 then ((0, os_next w), mkOS (os_script w) (os_next w :: os_fds w) (os_next w + 1) (os_mem w)) else ((r, -1), w).
(** close releases the descriptor also when it reports an error (as Linux does). (842_interface.c:91.) *)
Definition os_close (fd : Z) (w : os) : Z * os :=
  let '(r, w) := os_call w in (r, mkOS (os_script w) (remove Z.eq_dec fd (os_fds w)) (os_next w) (os_mem w)).
(** malloc (842_interface.c:226-256). *)
Definition os_malloc (w : os) : bool * os :=
  let '(r, w) := os_call w in
  if r =? 0 then (true, mkOS (os_script w) (os_fds w) (os_next w) (os_mem w + 1)) else (false, w).
(** free (842_interface.c:211-256). *)
Definition os_free (w : os) : os := mkOS (os_script w) (os_fds w) (os_next w) (os_mem w - 1).

(** struct cryptodev_ctx (842_interface.c:30-34); [None]: alignmask was not set. *)
Record ctx := mkCtx { cfd : Z; ctx_mask : option Z }.

(** 842_interface.c:36-94: c842_ctx_init, with and without CIOCGSESSINFO ([info]; the mask is then what the driver says).  The error is -errno;
    0 with the context otherwise. *)
Definition c842_ctx_init (info : option Z) (w : os) : (Z * ctx) * os :=
  let none := mkCtx (-1) None in
  let '((r, fd), w) := os_open w in
  if negb (r =? 0) then ((- r, none), w)
  else
    let '(r, w) := os_call w in                                  (* fcntl *)
    if negb (r =? 0) then let '(_, w) := os_close fd w in ((- r, none), w)
    else
      let '(r, w) := os_call w in                                (* CIOCGSESSION *)
      if negb (r =? 0) then let '(_, w) := os_close fd w in ((- r, none), w)
      else
        match info with
        | None => ((0, mkCtx fd None), w)
        | Some mask =>
          let '(r, w) := os_call w in                            (* CIOCGSESSINFO *)
          if negb (r =? 0) then
            let '(_, w) := os_call w in                          (* CIOCFSESSION *)
            let '(_, w) := os_close fd w in ((- r, none), w)
          else ((0, mkCtx fd (Some mask)), w)
        end.

(** 842_interface.c:96-115: c842_ctx_deinit. *)
Definition c842_ctx_deinit (c : ctx) (w : os) : Z * os :=
  let '(r, w) := os_call w in
  let err := if negb (r =? 0) then - r else 0 in
  let '(r, w) := os_close (cfd c) w in
  (if negb (r =? 0) && (err =? 0) then - r else err, w).

(** The static variables (842_interface.c:207-209): whether call_once has run, whether tss_create made a key, thread_ctx_key_err;
    and the value of the key in each thread. *)
Record process := mkP { p_once : bool; p_key : bool; p_key_err : Z; p_tss : list (Z * ctx); p_os : os }.
(** tss_get (842_interface.c:226-256) in thread [t]. *)
Definition tss_find (t : Z) (l : list (Z * ctx)) : option ctx := option_map snd (find (fun x => fst x =? t) l).
(** <errno.h>; used in 842_interface.c:226-256. *)
Definition ENOMEM : Z := 12.

(** 842_interface.c:218-224 with call_once. *)
Definition create_thread_ctx_key (p : process) : process :=
  if p_once p then p
  else
    let '(r, w) := os_call (p_os p) in
    let err := if negb (r =? 0) then - ENOMEM else p_key_err p in
    let err := 0 in
    mkP true (r =? 0) err (p_tss p) w.

(** 842_interface.c:226-256: get_thread_cryptodev_ctx in thread [t].  tss_get and tss_set with a key that was
    not created are undefined. *)
Definition get_thread_cryptodev_ctx (info : option Z) (t : Z) (p : process) : outcome (Z * option ctx * process) :=
  let p := create_thread_ctx_key p in
  if negb (p_key_err p =? 0) then Done (p_key_err p, None, p)
  else if negb (p_key p) then Undef
  else
    match tss_find t (p_tss p) with
    | Some c => Done (0, Some c, p)
    | None =>
      let '(ok, w) := os_malloc (p_os p) in
      if negb ok then Done (- ENOMEM, None, mkP (p_once p) (p_key p) (p_key_err p) (p_tss p) w)
      else
        let '((err, c), w) := c842_ctx_init info w in
        if negb (err =? 0) then Done (err, None, mkP (p_once p) (p_key p) (p_key_err p) (p_tss p) (os_free w))
        else
          let '(r, w) := os_call w in                            (* tss_set *)
          if negb (r =? 0) then
            let '(_, w) := c842_ctx_deinit c w in
            Done (- ENOMEM, None, mkP (p_once p) (p_key p) (p_key_err p) (p_tss p) (os_free w))
          else Done (0, Some c, mkP (p_once p) (p_key p) (p_key_err p) ((t, c) :: p_tss p) w)
    end.

(** 842_interface.c:211-216: the end of thread [t] calls destroy_thread_ctx if the key has a value. *)
Definition thread_exit (t : Z) (p : process) : process :=
  match tss_find t (p_tss p) with
  | None => p
  | Some c =>
    let '(_, w) := c842_ctx_deinit c (p_os p) in
    mkP (p_once p) (p_key p) (p_key_err p) (filter (fun x => negb (fst x =? t)) (p_tss p)) (os_free w)
  end.

(** 842_interface.c:275-321: the four entry points, in thread [t].  Reading ctx->alignmask when it was not set is undefined. *)
Definition with_ctx {A} (info : option Z) (t : Z) (p : process) (fail : Z -> A) (run : Z -> outcome A) : outcome (A * process) :=
  '(err, c, p) <- get_thread_cryptodev_ctx info t p ;;
  match c with
  | None => Done (fail err, p)
  | Some c =>
    match ctx_mask c with
    | None => Undef
    | Some mask => a <- run mask ;; Done (a, p)
    end
  end.
(** <crypto/cryptodev.h>; used in 842_interface.c:282, 304. *)
Definition COP_ENCRYPT : Z := 0.
(** <crypto/cryptodev.h>; used in 842_interface.c:292, 318. *)
Definition COP_DECRYPT : Z := 1.
(** 842_interface.c:295-321: what the two chunked entry points have in common. *)
Definition hw842_chunked (drv : driver) (max_chunks op : Z) (info : option Z) (t : Z) (p : process)
  (numchunks : Z) (rets : list Z) (iaddr : Z) (inp : list Z) (istride : Z) (ilens : list Z)
  (oaddr : Z) (out : list Z) (ostride : Z) (olens : list Z) : outcome (Z * list Z * list Z * list Z * process) :=
  with_ctx info t p (fun err => (err, rets, olens, out))
    (fun mask => c842_compress_chunked drv max_chunks mask op numchunks rets iaddr inp istride ilens oaddr out ostride olens).
(** 842_interface.c:275-293: what the two other entry points have in common. *)
Definition hw842_single (drv : driver) (max_chunks op : Z) (info : option Z) (t : Z) (p : process) (cret : Z)
  (iaddr oaddr : Z) (inp out : list Z) (olen : Z) : outcome (Z * Z * list Z * process) :=
  with_ctx info t p (fun err => (err, olen, out)) (fun mask => c842_compress drv max_chunks mask op cret iaddr oaddr inp out olen).
(** 842_interface.c:295-307. *)
Definition hw842_compress_chunked drv max_chunks := hw842_chunked drv max_chunks COP_ENCRYPT.
(** 842_interface.c:309-321. *)
Definition hw842_decompress_chunked drv max_chunks := hw842_chunked drv max_chunks COP_DECRYPT.
(** 842_interface.c:275-283. *)
Definition hw842_compress drv max_chunks := hw842_single drv max_chunks COP_ENCRYPT.
(** 842_interface.c:285-293. *)
Definition hw842_decompress drv max_chunks := hw842_single drv max_chunks COP_DECRYPT.
