(** C73, C74: hw842, the cryptodev back end. *)
From Coq Require Import ZArith List Bool Lia Permutation.
From Verif Require Import SpecBits SpecCrc Spec842 CBase SpecCalls ChunkedModel SpecChunked ChunkedProofs CryptodevModel SpecCryptodev CryptodevProofs BitsLemmas InplaceItems PropOpt.
Import ListNotations.
Open Scope Z_scope.

(** * C73: what a call does *)
(** Within the limits of the interface, with a driver that processes a chunk as [f] does, the chunked call does for every chunk
    what [f] does, skips the chunks to be skipped and changes nothing else. *)
Theorem C73_chunked : forall f drv max_chunks op info t mask p n rets iaddr inp istride ilens oaddr out ostride olens,
  good_driver f op max_chunks drv -> ready t mask p -> arguments mask n iaddr istride ilens oaddr ostride olens ->
  accepted max_chunks mask n iaddr istride ilens oaddr ostride olens -> is_bytes inp -> is_bytes out ->
  areas n rets inp istride ilens out ostride olens -> all_defined f n iaddr inp istride ilens oaddr out ostride olens ->
  exists rets' olens' out',
    hw842_chunked drv max_chunks op info t p n rets iaddr inp istride ilens oaddr out ostride olens = Done (0, rets', olens', out', p) /\
    done_as_single f n rets iaddr inp istride ilens oaddr out ostride olens rets' olens' out'.
Proof.
  intros. unfold hw842_chunked. rewrite (with_ctx_ready _ _ _ mask) by auto.
  destruct (hw_accepts drv max_chunks mask op n rets iaddr inp istride ilens oaddr out ostride olens) with (f := f) as (a & b & c & E & D); auto.
  exists a, b, c. now rewrite E, bind_done.
Qed.
Print Assumptions C73_chunked.

(** Outside these limits the call fails with -EINVAL and changes nothing, whatever the driver is. *)
Theorem C73_chunked_limits : forall drv max_chunks op info t mask p n rets iaddr inp istride ilens oaddr out ostride olens,
  ready t mask p -> arguments mask n iaddr istride ilens oaddr ostride olens ->
  ~ accepted max_chunks mask n iaddr istride ilens oaddr ostride olens ->
  hw842_chunked drv max_chunks op info t p n rets iaddr inp istride ilens oaddr out ostride olens = Done (- EINVAL, rets, olens, out, p).
Proof. intros. unfold hw842_chunked. rewrite (with_ctx_ready _ _ _ mask), hw_rejects by auto. reflexivity. Qed.
Print Assumptions C73_chunked_limits.

(** When the driver fails its error is returned and no length is changed. *)
Theorem C73_driver_error : forall drv max_chunks op info t mask p n rets iaddr inp istride ilens oaddr out ostride olens err lens rets' out',
  ready t mask p -> arguments mask n iaddr istride ilens oaddr ostride olens ->
  accepted max_chunks mask n iaddr istride ilens oaddr ostride olens -> err <> 0 ->
  (forall q, drv q iaddr inp oaddr out rets = Done (err, lens, rets', out')) ->
  hw842_chunked drv max_chunks op info t p n rets iaddr inp istride ilens oaddr out ostride olens = Done (- err, rets', olens, out', p).
Proof. intros. unfold hw842_chunked. rewrite (with_ctx_ready _ _ _ mask) by auto. erewrite hw_driver_error by eauto. reflexivity. Qed.
Print Assumptions C73_driver_error.

(** The single call gives what [f] gives, for sizes below 2^32 - 1 and 2^32. *)
Theorem C73_single : forall f drv max_chunks op info t mask p cret iaddr oaddr inp out v,
  good_driver f op max_chunks drv -> 1 <= max_chunks -> ready t mask p -> (exists k, 0 <= k <= 16 /\ mask = 2 ^ k - 1) ->
  0 <= iaddr < 2 ^ 64 - 2 ^ 16 -> 0 <= oaddr < 2 ^ 64 - 2 ^ 16 -> iaddr mod (mask + 1) = 0 -> oaddr mod (mask + 1) = 0 ->
  lenZ inp < 2 ^ 32 - 1 -> lenZ out < 2 ^ 32 -> is_bytes inp -> is_bytes out ->
  observed (f iaddr oaddr inp out (lenZ out)) = Done v ->
  exists r, hw842_single drv max_chunks op info t p cret iaddr oaddr inp out (lenZ out) = Done (r, p) /\ observed (Done r) = Done v.
Proof.
  intros f drv maxc op info t mask p cret iaddr oaddr inp out v GD M1 R M PI PO AI AO LI LO Bi Bo E.
  pose proof (hw_single_ok drv maxc mask op f cret iaddr oaddr inp out v GD M1 M PI PO AI AO LI LO Bi Bo E) as H.
  unfold hw842_single. rewrite (with_ctx_ready _ _ _ mask) by auto. destruct (c842_compress drv maxc mask op cret iaddr oaddr inp out (lenZ out)) as [r| |]; try discriminate.
  exists r. rewrite bind_done. auto.
Qed.
Print Assumptions C73_single.

Theorem C73_single_limits : forall drv max_chunks op info t mask p cret iaddr oaddr inp out olen,
  ready t mask p -> (exists k, 0 <= k <= 16 /\ mask = 2 ^ k - 1) -> 0 <= iaddr < 2 ^ 64 - 2 ^ 16 -> 0 <= oaddr < 2 ^ 64 - 2 ^ 16 ->
  lenZ inp <= SIZE_MAX -> 0 <= olen <= SIZE_MAX ->
  iaddr mod (mask + 1) <> 0 \/ oaddr mod (mask + 1) <> 0 \/ 2 ^ 32 - 1 <= lenZ inp \/ 2 ^ 32 <= olen ->
  hw842_single drv max_chunks op info t p cret iaddr oaddr inp out olen = Done (- EINVAL, olen, out, p).
Proof.
  intros. unfold hw842_single. rewrite (with_ctx_ready _ _ _ mask), hw_single_rejects by (auto; lia). reflexivity.
Qed.
Print Assumptions C73_single_limits.

(** The four functions: with a device that compresses as [fc] does and decompresses as [fd] does (operations 0 and 1, cryptodev.h),
    hw842_compress and hw842_compress_chunked compress, hw842_decompress and hw842_decompress_chunked decompress. *)
Theorem C73_entry_points : forall fc fd drv max_chunks info t mask p,
  good_driver fc 0 max_chunks drv -> good_driver fd 1 max_chunks drv -> 1 <= max_chunks -> ready t mask p ->
  (forall n rets iaddr inp istride ilens oaddr out ostride olens,
     arguments mask n iaddr istride ilens oaddr ostride olens -> accepted max_chunks mask n iaddr istride ilens oaddr ostride olens -> is_bytes inp -> is_bytes out ->
     areas n rets inp istride ilens out ostride olens ->
     (all_defined fc n iaddr inp istride ilens oaddr out ostride olens -> exists rets' olens' out',
        hw842_compress_chunked drv max_chunks info t p n rets iaddr inp istride ilens oaddr out ostride olens = Done (0, rets', olens', out', p) /\
        done_as_single fc n rets iaddr inp istride ilens oaddr out ostride olens rets' olens' out') /\
     (all_defined fd n iaddr inp istride ilens oaddr out ostride olens -> exists rets' olens' out',
        hw842_decompress_chunked drv max_chunks info t p n rets iaddr inp istride ilens oaddr out ostride olens = Done (0, rets', olens', out', p) /\
        done_as_single fd n rets iaddr inp istride ilens oaddr out ostride olens rets' olens' out')) /\
  (forall cret iaddr oaddr inp out v, (exists k, 0 <= k <= 16 /\ mask = 2 ^ k - 1) ->
     0 <= iaddr < 2 ^ 64 - 2 ^ 16 -> 0 <= oaddr < 2 ^ 64 - 2 ^ 16 -> iaddr mod (mask + 1) = 0 -> oaddr mod (mask + 1) = 0 ->
     lenZ inp < 2 ^ 32 - 1 -> lenZ out < 2 ^ 32 -> is_bytes inp -> is_bytes out ->
     (observed (fc iaddr oaddr inp out (lenZ out)) = Done v ->
        exists r, hw842_compress drv max_chunks info t p cret iaddr oaddr inp out (lenZ out) = Done (r, p) /\ observed (Done r) = Done v) /\
     (observed (fd iaddr oaddr inp out (lenZ out)) = Done v ->
        exists r, hw842_decompress drv max_chunks info t p cret iaddr oaddr inp out (lenZ out) = Done (r, p) /\ observed (Done r) = Done v)).
Proof.
  intros fc fd drv maxc info t mask p GC GD M R. split.
  - intros. split; intros; eapply C73_chunked; eauto.
  - intros. split; intros; eapply C73_single; eauto.
Qed.
Print Assumptions C73_entry_points.
(** Such a device exists: it runs the software functions. *)
Definition soft_device (e : endian) (max_chunks : Z) : driver := fun q => if q_op q =? 0 then soft_driver 0 (sw842_compress_chunked e) q else soft_driver 1 (optsw842_decompress_chunked e) q.
Example C73_device : forall e max_chunks, max_chunks <= UINT_MAX ->
  good_driver (sw842_compress_f e) 0 max_chunks (soft_device e max_chunks) /\ good_driver (optsw842_decompress_f e) 1 max_chunks (soft_device e max_chunks).
Proof.
  intros e maxc HM. split.
  - assert (G : good_driver (sw842_compress_f e) 0 maxc (soft_driver 0 (sw842_compress_chunked e))) by (apply soft_driver_good; auto; apply (c28 e); cbn; auto).
    intros q iaddr inp oaddr out rets istride ostride n ilens olens OP. unfold soft_device. rewrite OP. apply (G q iaddr inp oaddr out rets istride ostride OP).
  - assert (G : good_driver (optsw842_decompress_f e) 1 maxc (soft_driver 1 (optsw842_decompress_chunked e))) by (apply soft_driver_good; auto; apply (c28 e); cbn; auto).
    intros q iaddr inp oaddr out rets istride ostride n ilens olens OP. unfold soft_device. rewrite OP. apply (G q iaddr inp oaddr out rets istride ostride OP).
Qed.

(** The chunked functions of the library are drivers as expected: what the theorems above assume can be met. *)
Theorem C73_library_as_driver : forall e f g op max_chunks,
  In (f, g) [(sw842_compress_f e, sw842_compress_chunked e); (sw842_decompress_f e, sw842_decompress_chunked e);
             (optsw842_compress_f e, optsw842_compress_chunked e); (optsw842_decompress_f e, optsw842_decompress_chunked e)] ->
  max_chunks <= UINT_MAX -> good_driver f op max_chunks (soft_driver op g).
Proof. intros e f g op maxc H HM. apply soft_driver_good; auto. now apply (c28 e). Qed.
Print Assumptions C73_library_as_driver.

(** A case: a thread whose context asks for 64-byte alignment; three chunks, the second of which is skipped. *)
Definition case_process : process := mkP true true 0 [(7, mkCtx 3 (Some 63))] (mkOS [] [3] 4 1).
Definition case_in : list Z := map (fun i => Z.of_nat (i / 3) mod 256) (seq 0 24).
Definition case_result := Eval vm_compute in
  hw842_chunked (soft_driver COP_ENCRYPT (sw842_compress_chunked LE)) 16 COP_ENCRYPT (Some 63) 7 case_process 3 [9; 9; 9] 128 case_in 8 [8; SIZE_MAX; 8] 640
    (List.repeat 5 192) 64 [64; 50; 64].
Example C73_case : exists rets olens out, case_result = Done (0, rets, olens, out, case_process) /\ rets = [0; 9; 0] /\ nth 1 olens 0 = 50 /\ nth 0 olens 0 < 64 /\ nth 70 out 0 = 5.
Proof. unfold case_result. eexists _, _, _. split; [reflexivity|]. split; [reflexivity|]. split; [reflexivity|]. split; reflexivity. Qed.
Example C73_hypotheses : ready 7 63 case_process /\ arguments 63 3 128 8 [8; SIZE_MAX; 8] 640 64 [64; 50; 64] /\
  accepted 16 63 3 128 8 [8; SIZE_MAX; 8] 640 64 [64; 50; 64] /\ areas 3 [9; 9; 9] case_in 8 [8; SIZE_MAX; 8] (List.repeat 5 192) 64 [64; 50; 64] /\
  all_defined (sw842_compress_f LE) 3 128 case_in 8 [8; SIZE_MAX; 8] 640 (List.repeat 5 192) 64 [64; 50; 64] /\
  ~ accepted 16 63 3 129 8 [8; SIZE_MAX; 8] 640 64 [64; 50; 64] /\ ~ accepted 2 63 3 128 8 [8; SIZE_MAX; 8] 640 64 [64; 50; 64].
Proof.
  split; [repeat split; exists (mkCtx 3 (Some 63)); split; reflexivity|].
  split. { unfold arguments. split; [exists 6; split; [lia|reflexivity]|]. unfold SIZE_MAX. split; [lia|]. split; [lia|]. split; [lia|]. split; [lia|]. split; [lia|]. split; [reflexivity|]. split; [reflexivity|]. split; repeat (apply Forall_cons; [lia|]); apply Forall_nil. }
  split. { unfold accepted. split; [reflexivity|]. split; [reflexivity|]. split; [lia|]. split; [lia|]. split; [lia|]. change (Z.to_nat 3) with 3%nat. intros j Hj. do 3 (destruct j as [|j]; [cbn [nth]; unfold SIZE_MAX; lia|]). lia. }
  assert (LV : forall j, live 3 [8; SIZE_MAX; 8] j -> j = 0%nat \/ j = 2%nat).
  { intros j [H1 H2]. change (Z.to_nat 3) with 3%nat in H1. do 3 (destruct j as [|j]; [cbn [nth] in H2; auto; congruence|]). lia. }
  split. { unfold areas. split; [reflexivity|]. split; [reflexivity|]. split; [reflexivity|]. split; [lia|]. split; [lia|]. intros j L. change (lenZ case_in) with 24; change (lenZ (List.repeat 5 192)) with 192; destruct (LV _ L) as [-> | ->]; cbn [nth Z.of_nat Pos.of_succ_nat Pos.succ]; lia. }
  split. { intros j L. destruct (LV _ L) as [-> | ->]; vm_compute; eauto. }
  split; unfold accepted; intros (A1 & A2 & A3 & A4); [vm_compute in A1; discriminate|lia].
Qed.

(** * C74: contexts and threads *)
(** Whatever threads call, fail and end in whatever order, and whatever fails in the system (the key for the thread-specific storage
    excepted): a call has a defined result; the open descriptors and the allocated blocks are exactly those of the contexts, and a
    thread has a context at most once, and only while it lives. *)
Theorem C74_contexts_partial : forall info script fd h p, hd 0 script = 0 -> history info (fresh script fd) h p ->
  NoDup (map fst (p_tss p)) /\ (forall t, In t (map fst (p_tss p)) -> alive h t) /\
  NoDup (os_fds (p_os p)) /\ Permutation (os_fds (p_os p)) (map (fun x => cfd (snd x)) (p_tss p)) /\ os_mem (p_os p) = lenZ (p_tss p) /\
  forall t, exists r c p', get_thread_cryptodev_ctx info t p = Done (r, c, p') /\
    (r = 0 -> exists c0, c = Some c0 /\ tss_find t (p_tss p') = Some c0) /\ (r <> 0 -> c = None /\ p_tss p' = p_tss p).
Proof.
  intros info script fd h p HS H. pose proof (history_inv _ _ _ _ _ HS H) as I. pose proof I as (K & E & S0 & P & N1 & N2 & F & M & A). repeat (split; auto).
  - intros t Ht. apply in_map_iff in Ht. destruct Ht as (x & <- & Hx). exact (proj1 (Forall_forall _ _) A _ Hx).
  - intros t. destruct (call_inv info (alive h) (alive (h ++ [Call t])) t p) as (r & c & p' & G & _ & G1 & G2); auto; [intros; apply alive_call; auto|apply alive_call; auto|]. exists r, c, p'. auto.
Qed.
Print Assumptions C74_contexts_partial.

(** Nothing is left when no thread is alive. *)
Theorem C74_nothing_left_partial : forall info script fd h p, hd 0 script = 0 -> history info (fresh script fd) h p -> (forall t, ~ alive h t) ->
  os_fds (p_os p) = [] /\ os_mem (p_os p) = 0.
Proof.
  intros info script fd h p HS H NA. destruct (C74_contexts_partial info script fd h p HS H) as (_ & A & _ & P & M & _).
  destruct (p_tss p) as [|x l] eqn:T; [|exfalso; apply (NA (fst x)), A; left; reflexivity]. cbn in P, M. split; auto. now apply Permutation_nil, Permutation_sym.
Qed.
Print Assumptions C74_nothing_left_partial.

(** A thread that has a context keeps it until it ends: further calls, its own or those of others, do not open it again. *)
Theorem C74_context_kept : forall info t c p, p_once p = true -> p_key p = true -> p_key_err p = 0 -> tss_find t (p_tss p) = Some c ->
  get_thread_cryptodev_ctx info t p = Done (0, Some c, p) /\
  forall u, u <> t -> (forall r d p', get_thread_cryptodev_ctx info u p = Done (r, d, p') -> tss_find t (p_tss p') = Some c) /\ tss_find t (p_tss (thread_exit u p)) = Some c.
Proof. exact context_kept. Qed.
Print Assumptions C74_context_kept.

(** Any failure while the context of a thread is set up is what the call reports: the six steps are malloc, open, fcntl, CIOCGSESSION, CIOCGSESSINFO
    and tss_set; the first one that fails ends the call with its error (-ENOMEM for the first and the last, -errno for the others); results, lengths and
    output are as before, and neither a context nor a descriptor nor memory is left. *)
Theorem C74_setup_failure_reported : forall drv max_chunks op mask t p k r rest,
  p_once p = true -> p_key p = true -> p_key_err p = 0 -> tss_find t (p_tss p) = None -> ~ In (os_next (p_os p)) (os_fds (p_os p)) ->
  os_script (p_os p) = List.repeat 0 k ++ r :: rest -> (k < 6)%nat -> r <> 0 ->
  let err := if (k =? 0)%nat || (k =? 5)%nat then - ENOMEM else - r in
  exists p', p_tss p' = p_tss p /\ os_fds (p_os p') = os_fds (p_os p) /\ os_mem (p_os p') = os_mem (p_os p) /\
    (forall n rets iaddr inp istride ilens oaddr out ostride olens,
       hw842_chunked drv max_chunks op (Some mask) t p n rets iaddr inp istride ilens oaddr out ostride olens = Done (err, rets, olens, out, p')) /\
    (forall cret iaddr oaddr inp out olen, hw842_single drv max_chunks op (Some mask) t p cret iaddr oaddr inp out olen = Done (err, olen, out, p')).
Proof.
  intros drv mc op mask t p k r rest K1 K2 K3 T NI ES Hk Hr err.
  destruct p as [once key kerr tss [script fds next mem]]. cbn [p_once p_key p_key_err p_tss p_os os_script os_fds os_next os_mem] in *. subst once key kerr.
  assert (RM : remove Z.eq_dec next (next :: fds) = fds).
  { cbn [remove]. destruct (Z.eq_dec next next) as [_|N]; [|contradiction]. now apply notin_remove. }
  assert (Hr' : (- r =? 0) = false) by (apply Z.eqb_neq; lia). apply Z.eqb_neq in Hr.
  assert (G : forall (P : process -> Prop), (forall p', p_tss p' = tss -> os_fds (p_os p') = fds -> os_mem (p_os p') = mem ->
    get_thread_cryptodev_ctx (Some mask) t (mkP true true 0 tss (mkOS script fds next mem)) = Done (err, None, p') -> P p') -> exists p', P p').
  { intros P H. unfold get_thread_cryptodev_ctx, create_thread_ctx_key in H. cbn [p_once p_key p_key_err p_tss p_os Z.eqb negb] in H. rewrite T in H.
    unfold err in *. clear err. destruct rest as [|r1 [|r2 rest]]; do 6 (destruct k as [|k]; [
      cbn [List.repeat app] in ES; subst script; 
      cbn [os_malloc os_call os_script os_fds os_next os_mem] in H; unfold c842_ctx_init, c842_ctx_deinit, os_open, os_close in H;
      repeat (cbn [os_call os_script os_fds os_next os_mem cfd Z.eqb negb Nat.eqb orb] in H; rewrite ?Hr, ?Hr' in H);
      rewrite ?RM in H; eexists; eapply H; [| | |reflexivity]; cbn [p_tss p_os os_fds os_mem os_free]; try reflexivity; try assumption; try lia|]); lia. }
  apply G. intros p' E1 E2 E3 E4. split; auto. split; auto. split; auto.
  unfold hw842_chunked, hw842_single, with_ctx. rewrite E4. split; reflexivity.
Qed.
Print Assumptions C74_setup_failure_reported.
Example C74_setup_case : exists p', hw842_single (soft_driver COP_ENCRYPT (sw842_compress_chunked LE)) 16 COP_ENCRYPT (Some 63) 2
    (mkP true true 0 [(1, mkCtx 3 (Some 63))] (mkOS [0; 0; 0; 16] [3] 4 1)) 0 0 0 [] [] 7 = Done (- 16, 7, [], p') /\ os_fds (p_os p') = [3].
Proof.
  destruct (C74_setup_failure_reported (soft_driver COP_ENCRYPT (sw842_compress_chunked LE)) 16 COP_ENCRYPT 63 2
    (mkP true true 0 [(1, mkCtx 3 (Some 63))] (mkOS [0; 0; 0; 16] [3] 4 1)) 3 16 []) as (p' & _ & F & _ & _ & E); try reflexivity; try lia.
  - cbn. lia.
  - exists p'. split; [apply E|exact F].
Qed.

(** When tss_create fails, the error code is overwritten by 0 (842_interface.c:218-224) and the first call uses a key that does not exist. *)
Theorem C74_key_failure_refuted : forall info t r script fd, r <> 0 -> get_thread_cryptodev_ctx info t (fresh (r :: script) fd) = Undef.
Proof. intros info t r script fd H. unfold get_thread_cryptodev_ctx, create_thread_ctx_key, fresh. cbn. destruct (Z.eqb_spec r 0); [contradiction|reflexivity]. Qed.
Print Assumptions C74_key_failure_refuted.

(** Without CIOCGSESSINFO in the header the alignment is never set, but read (842_interface.c:30-94, 124-193). *)
Theorem C74_no_session_info_refuted : forall drv max_chunks op t fd n rets iaddr inp istride ilens oaddr out ostride olens,
  hw842_chunked drv max_chunks op None t (fresh [] fd) n rets iaddr inp istride ilens oaddr out ostride olens = Undef.
Proof. intros. unfold hw842_chunked, with_ctx, get_thread_cryptodev_ctx, fresh. cbn. reflexivity. Qed.
Print Assumptions C74_no_session_info_refuted.

(** A case: two threads; the second one's first call fails in CIOCGSESSION (the results are those of tss_create, malloc, open, fcntl, CIOCGSESSION,
    CIOCGSESSINFO, tss_set; malloc, open, fcntl, CIOCGSESSION, close); then the first ends. *)
Definition case_script : list Z := [0; 0; 0; 0; 0; 0; 0; 0; 0; 0; 22].
Example C74_case : exists p1 p2, history (Some 63) (fresh case_script 3) [Call 1; Call 2] p1 /\ os_fds (p_os p1) = [3] /\ os_mem (p_os p1) = 1 /\
  ready 1 63 p1 /\ tss_find 2 (p_tss p1) = None /\ alive [Call 1; Call 2] 2 /\
  history (Some 63) (fresh case_script 3) [Call 1; Call 2; Call 2; Exit 1] p2 /\ os_fds (p_os p2) = [5] /\ os_mem (p_os p2) = 1 /\
  ~ alive [Call 1; Call 2; Call 2; Exit 1] 1.
Proof.
  set (q1 := match get_thread_cryptodev_ctx (Some 63) 1 (fresh case_script 3) with Done (_, _, p) => p | _ => fresh [] 0 end).
  assert (H1 : history (Some 63) (fresh case_script 3) ([] ++ [Call 1]) q1) by (eapply h_call; [apply h_start|vm_compute; reflexivity]). vm_compute in q1. 
  set (q2 := match get_thread_cryptodev_ctx (Some 63) 2 q1 with Done (_, _, p) => p | _ => fresh [] 0 end).
  assert (H2 : history (Some 63) (fresh case_script 3) (([] ++ [Call 1]) ++ [Call 2]) q2) by (eapply h_call; [apply H1|vm_compute; reflexivity]).
  set (q3 := match get_thread_cryptodev_ctx (Some 63) 2 q2 with Done (_, _, p) => p | _ => fresh [] 0 end).
  assert (H3 : history (Some 63) (fresh case_script 3) ((([] ++ [Call 1]) ++ [Call 2]) ++ [Call 2]) q3) by (eapply h_call; [apply H2|vm_compute; reflexivity]).
  pose proof (h_exit _ _ _ _ 1 H3) as H4.
  exists q2, (thread_exit 1 q3). split; [exact H2|]. split; [reflexivity|]. split; [reflexivity|].
  split; [repeat split; exists (mkCtx 3 (Some 63)); split; reflexivity|]. split; [reflexivity|]. split; [cbn; tauto|]. split; [exact H4|]. split; [reflexivity|]. split; [reflexivity|].
  cbn. intros [[_ H]|[[H _]|[[H _]|[]]]]; [tauto|lia|lia].
Qed.
