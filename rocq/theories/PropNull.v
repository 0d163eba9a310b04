(** C70: the optional arrays of the OpenCL decompressor. *)
From Coq Require Import ZArith List Bool Lia Permutation.
From Verif Require Import SpecBits SpecCrc Spec842 CBase OclModel SpecOcl SpecNull InplaceProofs InplaceSmall InplaceItems NullProofs NullItems PropSerial PropOpt PropOcl.
Import ListNotations.
Open Scope Z_scope.

(** Leaving out arrays changes nothing in what a call does that succeeds with them, if 48 more bytes
    can be read behind every compressed chunk when the compressed sizes are left out. *)
Theorem C70_optional_arrays_partial : forall e a m a' m' order m1,
  layout_ok 2 a m -> sizes_ok a \/ chunks_ok e a -> schedule a order -> leaves_out a a' m m' ->
  (a_format a = AlwaysCompressed -> a_ilen a' = None -> bytes_behind 48 a /\ lenZ (a_in a) < 2 ^ 64) ->
  run_items e a order m = Done m1 -> all_succeed a m1 ->
  exists m1', run_items e a' order m' = Done m1' /\ same_effect m' m1 m1'.
Proof. exact arrays_optional. Qed.
Print Assumptions C70_optional_arrays_partial.

(** Without the 48 bytes the kernel reads behind the end of the input buffer: the compressed sizes
    are not only "for error-checking" (cl.h:91-92), they also stop the read-ahead. *)
Definition null_args : cl_args := mkA AlwaysCompressed 40 48 (pad_to 48 osample_z ++ osample_z) 0 (Some [24; 24]) 0 2 None.
Definition null_mem : cl_mem := mkM (List.repeat 7 82) (Some [40; 40]) (Some [5; 5]).
Lemma null_layout : layout_ok 2 null_args null_mem /\ sizes_ok null_args.
Proof.
  split.
  - split; cbn -[Z.mul Z.add Z.le Z.modulo]; try (split; (lia || reflexivity)).
    + isb. + split; [isb|unfold lenZ; cbn; lia].
    + eexists. split; [reflexivity|]. split; [reflexivity|]. repeat constructor; lia.
    + eexists. split; reflexivity.
    + discriminate.
  - split; [reflexivity|]. eexists. split; [reflexivity|]. split; [reflexivity|]. intros c Hc. cbn in Hc.
    assert (c = 0 \/ c = 1) as [->| ->] by lia; vm_compute; repeat split; discriminate.
Qed.
Theorem C70_sizes_left_out_refuted : exists a m order,
  layout_ok 2 a m /\ sizes_ok a /\ schedule a order /\
  forall e, (exists m1, run_items e a order m = Done m1 /\ all_succeed a m1) /\ run_items e (without_sizes a None) order m = Undef.
Proof.
  exists null_args, null_mem, (chunk_numbers 256). split; [apply null_layout|]. split; [apply null_layout|]. split; [apply Permutation_refl|].
  intros e. split.
  - exists (mkM (osample ++ osample ++ [7; 7]) (Some [40; 40]) (Some [0; 0])). split; [destruct e; vm_compute; reflexivity|].
    intros c Hc. cbn in Hc. assert (c = 0 \/ c = 1) as [->| ->] by lia; reflexivity.
  - destruct e; vm_compute; reflexivity.
Qed.
Print Assumptions C70_sizes_left_out_refuted.

(** A case: the same call with 48 bytes behind the last chunk. *)
Definition null_args48 : cl_args := mkA AlwaysCompressed 40 48 (pad_to 48 osample_z ++ osample_z ++ List.repeat 201 48) 0 (Some [24; 24]) 0 2 None.
Example C70_hypotheses : layout_ok 2 null_args48 null_mem /\ sizes_ok null_args48 /\
  leaves_out null_args48 (without_sizes null_args48 None) null_mem (mkM (List.repeat 7 82) None None) /\
  bytes_behind 48 null_args48 /\ lenZ (a_in null_args48) < 2 ^ 64.
Proof.
  split.
  { split; cbn -[Z.mul Z.add Z.le Z.modulo]; try (split; (lia || reflexivity)).
    + isb. + split; [isb|unfold lenZ; cbn; lia].
    + eexists. split; [reflexivity|]. split; [reflexivity|]. repeat constructor; lia.
    + eexists. split; reflexivity.
    + discriminate. }
  split.
  { split; [reflexivity|]. eexists. split; [reflexivity|]. split; [reflexivity|]. intros c Hc. cbn in Hc.
    assert (c = 0 \/ c = 1) as [->| ->] by lia; vm_compute; repeat split; discriminate. }
  split.
  { split; [exists None; split; [right|]; reflexivity|]. split; [reflexivity|]. split; right; reflexivity. }
  split; [|reflexivity]. intros c Hc. cbn in Hc. assert (c = 0 \/ c = 1) as [->| ->] by lia; vm_compute; discriminate.
Qed.
Example C70_case : run_items LE (without_sizes null_args48 None) (chunk_numbers 256) (mkM (List.repeat 7 82) None None) = Done (mkM (osample ++ osample ++ [7; 7]) None None) /\
  run_items BE null_args48 (chunk_numbers 256) (mkM (List.repeat 7 82) None (Some [5; 5])) = Done (mkM (osample ++ osample ++ [7; 7]) None (Some [0; 0])).
Proof. split; vm_compute; reflexivity. Qed.

(** Directly: well-formed chunks are restored and reported, whichever arrays are given, and no
    other byte of the output buffer is changed.  The output buffer needs no room behind the last chunk. *)
Theorem C70_well_formed_chunks : forall e a m x,
  nlayout_ok a m -> (forall c, 0 <= c < a_num a -> chunk_holds e a m c (x c)) -> forall order, schedule a order ->
  exists m', run_items e a order m = Done m' /\ length (m_out m') = length (m_out m) /\
    (forall c, 0 <= c < a_num a -> restored a m m' c (x c)) /\
    (forall p, outside a x p -> nth p (m_out m') 0 = nth p (m_out m) 0).
Proof. exact well_formed. Qed.
Print Assumptions C70_well_formed_chunks.
Lemma osample_denotes : denotes_842 osample_z osample.
Proof.
  destruct (crc_end_check_ok osample_z osample) as (rest & ST & L); [vm_compute; reflexivity|]. exists rest. split; [exact ST|lia].
Qed.
Definition bare_args : cl_args := without_sizes null_args48 None.
Definition bare_mem : cl_mem := mkM (List.repeat 7 80) None None.
Example C70_well_formed_hypotheses : forall e, nlayout_ok bare_args bare_mem /\ (forall c, 0 <= c < a_num bare_args -> chunk_holds e bare_args bare_mem c osample) /\
  schedule bare_args (chunk_numbers 256).
Proof.
  intros e. split; [|split; [|apply Permutation_refl]].
  - split; cbn -[Z.mul Z.add Z.le Z.modulo Z.lt]; auto; try discriminate; try (split; (lia || reflexivity)).
    + split; [isb|unfold lenZ; cbn; lia]. + split; [isb|unfold lenZ; cbn; lia].
  - intros c Hc. cbn in Hc. exists 24. split; [lia|]. split; [reflexivity|]. split.
    + assert (c = 0 \/ c = 1) as [-> | ->] by lia; exact osample_denotes.
    + split; [vm_compute; discriminate|]. assert (c = 0 \/ c = 1) as [-> | ->] by lia; vm_compute; discriminate.
Qed.
Example C70_well_formed_case : run_items LE bare_args (chunk_numbers 256) bare_mem = Done (mkM (osample ++ osample) None None).
Proof. vm_compute. reflexivity. Qed.
