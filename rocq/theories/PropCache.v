(** C75: the cache of the compiled OpenCL program. *)
From Coq Require Import ZArith List Bool Lia.
From Verif Require Import SpecBits CBase SpecCrc CacheModel SpecCache CacheProofs InplaceItems.
Import ListNotations.
Open Scope Z_scope.

(** Runs one after the other, with any configurations, that may die at any point of writing the file or find the disk full: a run that builds a decompressor
    has the program for its own configuration, and a run fails only if its program cannot be compiled or the file not be
    written. *)
Theorem C75_right_program_partial : forall e alloc compile loads h file,
  runs e alloc compile loads h file -> Forall (config_ok alloc compile) (used h) -> hashes_differ (used h) ->
  forall c w r, In (c, w, r) h ->
    match r with
    | Some (Program bins) => compile c = Some bins
    | Some Throws => compile c = None \/ write_raises w
    | None => exists k, w = Dies k
    end.
Proof. intros e alloc compile loads h file H OK HD. exact (proj2 (runs_ok e alloc compile loads h file H OK HD)). Qed.
Print Assumptions C75_right_program_partial.

(** Whatever the file contains, a run ends. *)
Theorem C75_run_ends : forall e alloc compile loads c w file, is_bytes (g_source c) ->
  exists r file', buildProgram e alloc compile loads c w file = Done (r, file').
Proof. exact build_defined. Qed.
Print Assumptions C75_run_ends.

(** After a run that could write the file, the next run with the same configuration needs no compiler and does not write. *)
Theorem C75_second_run_uses_cache : forall e alloc compile loads c bins file file',
  config_ok alloc compile c -> (forall b, compile c = Some b -> loads c b = true) ->
  buildProgram e alloc compile loads c Writes file = Done (Some (Program bins), file') ->
  forall w compile', buildProgram e alloc compile' loads c w file' = Done (Some (Program bins), file').
Proof. exact cache_hit. Qed.
Print Assumptions C75_second_run_uses_cache.

(** Two configurations with different chunk sizes (the kernel source is "k", the device is called "d"). *)
Definition conf (size : Z) : config := mkConfig [107] size 128 0 [[100]].
Definition bin (size : Z) : list Z := List.repeat size 20.
Definition comp (c : config) : option (list (list Z)) := Some [bin (g_size c)].
Lemma conf_ok size alloc : 0 <= size < 256 -> (forall n, n <= 20 -> alloc n = true) -> config_ok alloc comp (conf size).
Proof.
  intros H A. unfold config_ok. cbn [conf g_source g_size g_stride g_format g_devices]. split; [apply InplaceItems.is_bytes_b; reflexivity|]. split; [lia|]. split; [lia|]. split; [lia|].
  split. { constructor; [|constructor]. split; [apply InplaceItems.is_bytes_b; reflexivity|]. split; [reflexivity|apply A; vm_compute; discriminate]. }
  split; [vm_compute; auto|]. unfold comp. cbn [g_size conf]. intros bins E. assert (bins = [bin size]) by congruence. subst bins. split; [reflexivity|]. constructor; [|constructor].
  split; [unfold bin, is_bytes; apply Forall_forall; intros x Hx; apply repeat_spec in Hx; subst; unfold is_byte; lia|]. unfold lenZ, bin. rewrite repeat_length. split; [lia|apply A; lia].
Qed.

(** The file is in the way when it cannot be written, for instance because it belongs to another user: the decompressor cannot
    be built although its program was compiled. *)
Theorem C75_unwritable_refuted : forall e alloc loads, (forall n, n <= 20 -> alloc n = true) ->
  exists c file bins, config_ok alloc comp c /\ comp c = Some bins /\
    buildProgram e alloc comp loads (conf 64) Writes None = Done (Some (Program [bin 64]), file) /\
    buildProgram e alloc comp loads c Unwritable file = Done (Some Throws, file).
Proof.
  intros e alloc loads A. exists (conf 65), (Some (written e (meta_of (conf 64)) [bin 64])), [bin 65]. split; [apply conf_ok; auto; lia|]. split; [reflexivity|].
  assert (H : forall s, 0 <= s < 256 -> is_bytes (g_source (conf s))) by (intros s _; apply InplaceItems.is_bytes_b; reflexivity).
  split.
  - unfold buildProgram. rewrite crc_all by (apply H; lia). rewrite BitsLemmas.bind_done. fold (meta_of (conf 64)). unfold find, comp. cbv iota beta. change (g_size (conf 64)) with 64. reflexivity.
  - unfold buildProgram. rewrite crc_all by (apply H; lia). rewrite BitsLemmas.bind_done. fold (meta_of (conf 65)).
    destruct (find_other e alloc (meta_of (conf 64)) (meta_of (conf 65)) [bin 64] (length (written e (meta_of (conf 64)) [bin 64]))) as [E|[rest E]].
    + eapply meta_of_ok. apply conf_ok; auto. lia.
    + intros E. apply (f_equal m_size) in E. discriminate.
    + rewrite firstn_all in E. rewrite E. reflexivity.
    + rewrite firstn_all in E. rewrite E. reflexivity.
Qed.
Print Assumptions C75_unwritable_refuted.

(** A damaged file that announces a string longer than possible makes the building fail (the exception is not an
    ifstream::failure), instead of being compiled again. *)
Theorem C75_damaged_file_refuted : forall e alloc loads, (forall n, n <= 20 -> alloc n = true) -> alloc (2 ^ 64 - 1) = false ->
  exists c bs, config_ok alloc comp c /\ is_bytes bs /\ buildProgram e alloc comp loads c Writes (Some bs) = Done (Some Throws, Some bs).
Proof.
  intros e alloc loads A N. exists (conf 64), (native_bytes e 8 64 ++ native_bytes e 8 128 ++ native_bytes e 4 0 ++ native_bytes e 4 0 ++ native_bytes e 8 1 ++ native_bytes e 8 (2 ^ 64 - 1)).
  split; [apply conf_ok; auto; lia|]. split; [unfold is_bytes; repeat (apply Forall_app; split); apply OclExt.native_bytes_bytes|].
  unfold buildProgram. rewrite crc_all by (apply InplaceItems.is_bytes_b; reflexivity). rewrite BitsLemmas.bind_done. fold (meta_of (conf 64)).
  assert (E : find e alloc (meta_of (conf 64)) (Some (native_bytes e 8 64 ++ native_bytes e 8 128 ++ native_bytes e 4 0 ++ native_bytes e 4 0 ++ native_bytes e 8 1 ++ native_bytes e 8 (2 ^ 64 - 1))) = Raises).
  { unfold find, readMetadata. assert (I8 : forall v t, 0 <= v < 2 ^ 64 -> read_int e 8 (native_bytes e 8 v ++ t) = Got v t) by (intros v t Hv; apply (parses_int e 8); exact Hv).
    assert (I4 : forall v t, 0 <= v < 2 ^ 32 -> read_int e 4 (native_bytes e 4 v ++ t) = Got v t) by (intros v t Hv; apply (parses_int e 4); exact Hv).
    rewrite I8 by lia. cbn [rbind]. rewrite I8 by lia. cbn [rbind]. rewrite I4 by lia. cbn [rbind]. rewrite I4 by lia. cbn [rbind]. rewrite I8 by lia. cbn [rbind read_blobs Z.gtb Z.compare].
    unfold read_blob. rewrite <- (app_nil_r (native_bytes e 8 (2 ^ 64 - 1))), I8 by lia. cbn [rbind]. now rewrite N. }
  now rewrite E.
Qed.
Print Assumptions C75_damaged_file_refuted.

(** Two processes at once: A (chunk size 64) writes 55 bytes, B (chunk size 65) opens the file and writes it to the end, A writes its rest.
    Both have ended normally; from now on every run with the configuration of B gets a mixture of the two programs. *)
Definition two_writers (e : endian) (a b : list Z) : list Z :=
  let '(wa, file) := open_file a in
  let '(wa, file) := write_file 55 wa file in
  let '(wb, file) := open_file b in
  let '(wb, file) := write_file (length b) wb file in
  let '(wa, file) := write_file (length a) wa file in
  file.
Theorem C75_two_processes_refuted : forall e, exists a b abin bbin,
  comp a = Some abin /\ comp b = Some bbin /\ config_ok (fun _ => true) comp a /\ config_ok (fun _ => true) comp b /\
  let file := two_writers e (written e (meta_of a) abin) (written e (meta_of b) bbin) in
  exists bins, bins <> bbin /\ buildProgram e (fun _ => true) comp (fun _ _ => true) b Writes (Some file) = Done (Some (Program bins), Some file).
Proof.
  intros e. exists (conf 64), (conf 65), [bin 64], [bin 65]. split; [reflexivity|]. split; [reflexivity|]. split; [apply conf_ok; auto; lia|]. split; [apply conf_ok; auto; lia|].
  exists [List.repeat 65 6 ++ List.repeat 64 14]. split; [vm_compute; discriminate|]. destruct e; vm_compute; reflexivity.
Qed.
Print Assumptions C75_two_processes_refuted.

(** The same for two processes with the same configuration, while the second one is still writing: a hole of zeros in the program. *)
Definition two_writers_hole (e : endian) (a : list Z) : list Z :=
  let '(wa, file) := open_file a in
  let '(wa, file) := write_file 55 wa file in
  let '(wb, file) := open_file a in
  let '(wb, file) := write_file 52 wb file in
  let '(wa, file) := write_file (length a) wa file in
  file.
Theorem C75_same_configuration_refuted : forall e, exists a abin bins,
  comp a = Some abin /\ config_ok (fun _ => true) comp a /\ bins <> abin /\
  buildProgram e (fun _ => true) comp (fun _ _ => true) a Writes (Some (two_writers_hole e (written e (meta_of a) abin))) =
    Done (Some (Program bins), Some (two_writers_hole e (written e (meta_of a) abin))).
Proof.
  intros e. exists (conf 64), [bin 64], [List.repeat 64 3 ++ [0; 0; 0] ++ List.repeat 64 14]. split; [reflexivity|]. split; [apply conf_ok; auto; lia|].
  split; [vm_compute; discriminate|]. destruct e; vm_compute; reflexivity.
Qed.
Print Assumptions C75_same_configuration_refuted.

(** Two versions of the kernel with the same checksum ("// r319332552" and "// r394548188"): the second gets the program of the first. *)
Definition old_source : list Z := [47; 47; 32; 114; 51; 49; 57; 51; 51; 50; 53; 53; 50].
Definition new_source : list Z := [47; 47; 32; 114; 51; 57; 52; 53; 52; 56; 49; 56; 56].
Definition comp_source (c : config) : option (list (list Z)) := Some [g_source c].
Theorem C75_checksum_refuted : forall e, exists c d file bins, g_source c <> g_source d /\
  config_ok (fun _ => true) comp_source c /\ config_ok (fun _ => true) comp_source d /\
  buildProgram e (fun _ => true) comp_source (fun _ _ => true) c Writes None = Done (Some (Program bins), file) /\
  buildProgram e (fun _ => true) comp_source (fun _ _ => true) d Writes file = Done (Some (Program bins), file) /\ comp_source d <> Some bins.
Proof.
  intros e. exists (mkConfig old_source 64 128 0 [[100]]), (mkConfig new_source 64 128 0 [[100]]), (Some (written e (meta_of (mkConfig old_source 64 128 0 [[100]])) [old_source])), [old_source].
  assert (OK : forall s, is_bytes s -> lenZ s < 2 ^ 64 -> config_ok (fun _ => true) comp_source (mkConfig s 64 128 0 [[100]])).
  { intros s B L. unfold config_ok. cbn [g_source g_size g_stride g_format g_devices]. split; [auto|]. split; [lia|]. split; [lia|]. split; [lia|].
    split. { constructor; [|constructor]. split; [apply InplaceItems.is_bytes_b; reflexivity|]. split; reflexivity. } split; [vm_compute; auto|].
    intros bins E. assert (bins = [s]) by (unfold comp_source in E; cbn [g_source] in E; congruence). subst bins. split; [reflexivity|]. constructor; [|constructor]. split; auto. }
  split; [discriminate|]. split; [apply OK; [apply InplaceItems.is_bytes_b; reflexivity|reflexivity]|]. split; [apply OK; [apply InplaceItems.is_bytes_b; reflexivity|reflexivity]|].
  split; [destruct e; vm_compute; reflexivity|]. split; [destruct e; vm_compute; reflexivity|discriminate].
Qed.
Print Assumptions C75_checksum_refuted.

(** A case: three runs; the first dies while writing, the second writes the file for another configuration, the third uses it. *)
Example C75_case : exists file, runs LE (fun _ => true) comp (fun _ _ => true)
  [(conf 64, Dies 30, None); (conf 65, Writes, Some (Program [bin 65])); (conf 65, Unwritable, Some (Program [bin 65])); (conf 64, Unwritable, Some Throws)] file /\
  Forall (config_ok (fun _ => true) comp) [conf 64; conf 65] /\ hashes_differ [conf 64; conf 65].
Proof.
  eexists. split.
  - change [(conf 64, Dies 30, None); (conf 65, Writes, Some (Program [bin 65])); (conf 65, Unwritable, Some (Program [bin 65])); (conf 64, Unwritable, Some Throws)]
      with (((([] ++ [(conf 64, Dies 30, @None result)]) ++ [(conf 65, Writes, Some (Program [bin 65]))]) ++ [(conf 65, Unwritable, Some (Program [bin 65]))]) ++ [(conf 64, Unwritable, Some Throws)]).
    eapply one_more; [eapply one_more; [eapply one_more; [eapply one_more; [apply no_runs|]|]|]|]; vm_compute; reflexivity.
  - split; [constructor; [apply conf_ok; auto; lia|constructor; [apply conf_ok; auto; lia|constructor]]|].
    intros c d Hc Hd _. cbn in Hc, Hd. destruct Hc as [<-|[<-|[]]], Hd as [<-|[<-|[]]]; reflexivity.
Qed.
