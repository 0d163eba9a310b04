(** C86: data races of the streams. *)
From Coq Require Import ZArith List Bool Lia.
From Verif Require Import CBase ConcLib SpecSync BarrierProofs StreamBlockModel CompStreamModel DecompStreamModel SpecDStream CompCases DecompCases.
From Verif Require Import SpecRace StreamAccessModel StreamRace.
Import ListNotations.
Open Scope Z_scope.

(** The accesses of StreamAccessModel are those of the steps of the model: a step changes nothing but
    what it writes, and what it does and writes depends on nothing but what it reads. *)
Theorem C86_accesses_of_threads : forall n i fail,
  (forall g t g' t' w evs, tstep n i fail g t = Some (g', t', w, evs) ->
    (forall l, ~ writes l (thread_accesses g (fst t)) -> same_c l g g') /\
    (forall h, reads_same same_c (thread_accesses g (fst t)) g h ->
       exists h', tstep n i fail h t = Some (h', t', w, evs) /\ writes_same same_c (thread_accesses g (fst t)) g' h')) /\
  (forall g t g' t' w evs, dtstep n i fail g t = Some (g', t', w, evs) ->
    (forall l, ~ writes l (dthread_accesses g (fst t)) -> same_d l g g') /\
    (forall h, reads_same same_d (dthread_accesses g (fst t)) g h ->
       exists h', dtstep n i fail h t = Some (h', t', w, evs) /\ writes_same same_d (dthread_accesses g (fst t)) g' h')).
Proof.
  intros n i fail. split; intros g t g' t' w evs E; (split; [intros l; now apply (c_writes n i fail) with t' w evs || now apply (d_writes n i fail) with t' w evs|intros h R]).
  - exact (c_reads n i fail g t g' t' w evs h E R).
  - exact (d_reads n i fail g t g' t' w evs h E R).
Qed.
Print Assumptions C86_accesses_of_threads.
Theorem C86_accesses_of_calls :
  (forall a s s', cstep a s = Some s' -> (forall i fail, a <> AThread i fail) -> forall l, ~ writes l (call_accesses a) -> same_c l (c_g s) (c_g s')) /\
  (forall a s s', dstep a s = Some s' -> (forall i fail, a <> BThread i fail) -> forall l, ~ writes l (dcall_accesses a) -> same_d l (d_g s) (d_g s')).
Proof.
  split; intros a s s' E N.
  - apply (c_call_writes a s s' E). destruct a; try exact Logic.I. exact (N _ _ eq_refl).
  - apply (d_call_writes a s s' E). destruct a; try exact Logic.I. exact (N _ _ eq_refl).
Qed.
Print Assumptions C86_accesses_of_calls.

(** Compression: with any number of threads, in any state, the only variable that two agents can access at the
    same time is _quit, by a thread that evaluates the condition of its loop and the user that calls the destructor.
    In particular neither the data nor the parameters of an operation are touched by a thread when the user may
    reuse them.  Full statement: there is no such variable. *)
Theorem C86_compression_races_partial : forall n s l, (1 <= n)%nat -> Z.of_nat n < 2 ^ 32 -> reachable cstep (new_stream n) s ->
  race (c_about s) l ->
  l = KQuit /\ (exists i t, nth_error (c_thr s) i = Some t /\ fst t = CLoop) /\ exists s', cstep AQuit1 s = Some s'.
Proof. exact c_race. Qed.
Print Assumptions C86_compression_races_partial.
(** That race happens. *)
Theorem C86_compression_race_refuted : forall n, (1 <= n)%nat -> exists s, reachable cstep (new_stream n) s /\ race (c_about s) KQuit.
Proof. exact c_race_quit. Qed.
Print Assumptions C86_compression_race_refuted.
(** Two threads that work at the same time, and a user that may call finalize. *)
Example C86_compression_case : exists s, reachable cstep (new_stream 2) s /\
  c_about s (Thr 0) (rd [] KData) /\ c_about s (Thr 1) (rd [] KSize) /\ c_about s User (wt [MStream] KFin).
Proof.
  eexists. split; [apply (run_reachable cstep ([AStart1 2097157; AStart2] ++ map (fun i => AThread i false) [0; 0; 0; 0; 0; 0; 0; 1; 1; 1]%nat)); vm_compute; reflexivity|].
  split; [|split].
  - eapply (ca_thread _ 0%nat false); [reflexivity|reflexivity|right; left; reflexivity].
  - eapply (ca_thread _ 1%nat false); [reflexivity|reflexivity|left; reflexivity].
  - eapply (ca_call _ (AFinalize false)); [reflexivity|left; reflexivity].
Qed.

(** Decompression: likewise, and two threads write to the same place of the destination only if the user pushed
    the same block twice in the same operation. *)
Theorem C86_decompression_races_partial : forall n s l, (1 <= n)%nat -> reachable dstep (new_dstream n) s ->
  race (d_about s) l ->
  (l = JQuit /\ (exists i t, nth_error (d_thr s) i = Some t /\ fst t = DLoop) /\ exists s', dstep BQuit1 s = Some s') \/
  (exists b, l = JData b /\ exists newer op p older, d_trace s = newer ++ op ++ VStart p :: older /\ Forall devents op /\ 2 <= accepted b op).
Proof. exact d_race. Qed.
Print Assumptions C86_decompression_races_partial.
Theorem C86_decompression_race_refuted : forall n, (1 <= n)%nat -> exists s, reachable dstep (new_dstream n) s /\ race (d_about s) JQuit.
Proof. exact d_race_quit. Qed.
Print Assumptions C86_decompression_race_refuted.
(** Two threads that decompress different blocks at the same time, and the user that pushes another one. *)
Example C86_decompression_case : exists s, reachable dstep (new_dstream 2) s /\
  d_about s (Thr 0) (wt [] (JData 7)) /\ d_about s (Thr 1) (wt [] (JData 8)) /\ d_about s User (wt [MStream] JQueue).
Proof.
  eexists. split; [apply (run_reachable dstep ([BStart1 5; BStart2; BPush 7 0; BPush 8 0] ++ map (fun i => BThread i false) [0; 0; 0; 0; 1; 1; 1; 1]%nat)); vm_compute; reflexivity|].
  split; [|split].
  - eapply (da_thread _ 0%nat false); [reflexivity|reflexivity|right; left; reflexivity].
  - eapply (da_thread _ 1%nat false); [reflexivity|reflexivity|right; left; reflexivity].
  - eapply (da_call _ (BPush 9 0)); [reflexivity|right; right; left; reflexivity].
Qed.
