(** The sample program for the streams with assertions: a run that ends in a failed assertion. *)
From Coq Require Import ZArith List Bool Lia.
From Verif Require Import SpecBits CBase ConcLib SpecSync BarrierModel BarrierProofs ChunkedModel SpecChunked StreamBlockModel StreamBlockProofs BlockProps Expansion CompStreamModel DecompStreamModel StreamSampleModel SpecStreamSample.
Import ListNotations.
Open Scope Z_scope.

Section Abort.
Variable gc gd : chunked_impl.
Variable inp : list Z.
Variable iaddr daddr : Z.
Variable crets : Z -> list Z.
Variable cbuf : Z -> Z * list Z.
Variable drets : Z -> list Z.
Variable b : block.
Variable m0 : list Z.
Hypothesis HL : lenZ inp = 1048576.
Hypothesis HB : the_block gc inp iaddr crets cbuf 0 = Done b.
Hypothesis HO : b_offset b = 0.
Hypothesis HD : decomp_handle_block false gd (drets 0) daddr m0 b = Done None.
Notation step := (ystep gc gd false inp iaddr daddr 1 crets cbuf drets).

Definition abort_run : list saction :=
  let c := List.repeat (YComp 0) in let d := List.repeat (YDecomp 0) in let m := List.repeat (YMain 0) in
  c 3%nat ++ m 3%nat ++ c 11%nat ++ m 2%nat ++ c 6%nat ++ m 3%nat ++ c 9%nat ++ m 1%nat ++ d 3%nat ++ m 3%nat ++ d 2%nat ++ m 1%nat ++ d 2%nat.
Lemma aborts : exists y, run step abort_run (mkY MReady (new_stream 1) [] false false (new_dstream 0) m0 false) = Some y /\ y_pc y = MAbort.
Proof.
  assert (S1 : forall j y, y_pc y = MStart1 -> step (YMain j) y = call_c (AStart1 1048576) MStart2 y) by (intros j y E; unfold ystep, main_step; now rewrite E, HL).
  cbv [abort_run List.repeat app].
  assert (G : forall l s s', step (hd (YMain 0) l) s = Some s' -> (exists y, run step (tl l) s' = Some y /\ y_pc y = MAbort) -> exists y, run step (hd (YMain 0) l :: tl l) s = Some y /\ y_pc y = MAbort).
  { intros l s s' E X. cbn [run]. rewrite E. exact X. }
  Ltac one G := match goal with |- exists y, run _ (?a :: ?l) _ = _ /\ _ => eapply (G (a :: l)); [cbn [hd]|cbn [tl]] end.
  do 4 (one G; [lazy -[the_block decomp_handle_block]; reflexivity|]).
  one G; [rewrite S1 by reflexivity; lazy -[the_block decomp_handle_block]; reflexivity|].
  repeat (one G; [lazy -[the_block decomp_handle_block b_offset]; rewrite ?HB, ?HO, ?HD; lazy -[the_block decomp_handle_block b_offset]; rewrite ?HD; lazy -[the_block decomp_handle_block b_offset]; reflexivity|]).
  eexists. split; [reflexivity|reflexivity].
Qed.
End Abort.

Lemma c80_abort e gc gd iaddr daddr crets cbuf drets : sample_setting e gc gd hard_source 1 crets cbuf drets ->
  exists y, reachable (ystep gc gd false hard_source iaddr daddr 1 crets cbuf drets) (sample_start hard_source 1) y /\ y_pc y = MAbort.
Proof.
  intros [S1 S2 S3 S4 S5 S6 S7 S8]. destruct (S7 0) as [B1 B2].
  destruct (c35_refuted e gc gd (crets 0) (drets 0) iaddr daddr (fst (cbuf 0)) (snd (cbuf 0)) (List.repeat 0 (length hard_source)) S1 B1 B2 (S6 0)) as (_ & HL & b & EB & ED).
  destruct (c35 e gc gd (crets 0) iaddr hard_source (fst (cbuf 0)) (snd (cbuf 0)) 0 S1 S2 S3 B1 B2 (S6 0)) as (b' & EB' & BO & _); [lia|rewrite HL; lia|].
  rewrite EB in EB'. injection EB' as <-.
  destruct (aborts gc gd hard_source iaddr daddr crets cbuf drets b (List.repeat 0 (length hard_source)) HL EB BO ED) as (y & R & PC). exists y. split; [|exact PC].
  exact (run_reachable _ abort_run _ y R).
Qed.
