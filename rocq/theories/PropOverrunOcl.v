(** The extent of C88: without output sizes every chunk is written in full, however long it is. *)
From Coq Require Import ZArith List Bool Lia.
From Verif Require Import SpecBits SpecCrc Spec842 SpecCalls CBase BitsLemmas SerialFacts SerialProps SpecOcl OclModel OclExt OclProofs OclItems OclProps
  SpecOptional OclOptional PropOcl PropOpt PropOptional.
Import ListNotations.
Open Scope Z_scope.

Lemma core_all e inp ilen out olen x : is_bytes inp -> is_bytes out -> 0 <= ilen -> 8 * ((ilen + 7) / 8) <= lenZ inp ->
  lenZ x <= lenZ out -> lenZ x <= olen -> lenZ x < 2 ^ 63 -> denotes_842 (words_of inp ilen) x ->
  decompress_core e inp ilen out olen = Done (0, lenZ x, x ++ skipn (length x) out).
Proof.
  intros Hi Ho HL HR HX HO H63 HD. apply core_more with (cap := lenZ x); auto. pose proof (lenZ_nonneg x) as H0.
  pose proof (core_pure e inp ilen out (lenZ x) Hi Ho (readable_words _ _ HL HR) ltac:(lia) H63) as C.
  assert (ilen <= lenZ inp). { pose proof (Z.div_mod (ilen + 7) 8 ltac:(lia)). pose proof (Z.mod_pos_bound (ilen + 7) 8 ltac:(lia)). lia. }
  unfold krun in C. rewrite whole_words in C by lia. set (bits := bytes_bits (words_of inp ilen)) in *.
  assert (FU : (length bits < S (Z.to_nat (8 * lenZ inp)))%nat).
  { unfold bits. rewrite bytes_bits_length. unfold words_of. rewrite firstn_length. unfold lenZ. lia. }
  destruct (kd_meaning (lenZ out) (lenZ x) bits _ ltac:(lia) FU) as (A1 & _). destruct HD as (rest & ST & L).
  rewrite (A1 _ _ ST ltac:(lia)) in C. destruct C as (m & -> & B & F & _ & D). rewrite D.
  apply rdb_enough in L. destruct L as (v & r & ->). reflexivity.
Qed.

(** C88: without output sizes, whatever the stream of the chunk, if it denotes the data [x], all of [x] ends up in the output buffer from the place of
    the chunk on, and the return value is 0, also if [x] is longer than a chunk.  What the next chunks held there, in whatever state [m] the other
    work items have left the memory, is lost. *)
Theorem C88_every_long_chunk_overruns_refuted : forall e a m rets g c x,
  layout_ok 2 a m -> sizes_ok a -> 0 <= g < a_num a -> opt_get (a_map a) g g = Done c -> 0 <= c < a_num a ->
  denotes_842 (bytes_at (a_in a) (in_pos a c) (elem (a_ilen a) c)) x -> a_size a < lenZ x < 2 ^ 63 -> out_pos a c + lenZ x <= lenZ (m_out m) ->
  exists m', work_item e a g (without false rets m) = Done m' /\ length (m_out m') = length (m_out m) /\
    bytes_at (m_out m') (out_pos a c) (a_size a) = firstn (Z.to_nat (a_size a)) x /\
    bytes_at (m_out m') (out_pos a (c + 1)) (lenZ x - a_size a) = skipn (Z.to_nat (a_size a)) x /\
    (forall i, Z.of_nat i < out_pos a c \/ out_pos a c + lenZ x <= Z.of_nat i -> nth i (m_out m') 0 = nth i (m_out m) 0) /\
    (rets = true -> elem (m_ret m') c = 0).
Proof.
  intros e a m rets g c x HL (HF & l & EL & LL & HS) Hg Hm Hc HD HX HO. destruct (HS c Hc) as (I0 & I8 & I1).
  destruct (ly_size _ _ _ HL) as [SZ S8]. destruct (ly_stride _ _ _ HL) as [T0 T8]. destruct (ly_inoff _ _ _ HL) as [N0 N8]. destruct (ly_outoff _ _ _ HL) as [O0 O8].
  destruct (ly_ret _ _ _ HL) as (R & ER & LR). destruct (ly_out _ _ _ HL) as [BO LO].
  unfold work_item. rewrite HF, Hm, bind_done. destruct (Z.geb_spec g (a_num a)); [lia|].
  assert (EO : 8 * (a_outoff a / 8 + a_size a / 8 * c) = out_pos a c). { unfold out_pos. pose proof (Z.div_mod (a_outoff a) 8 ltac:(lia)). pose proof (Z.div_mod (a_size a) 8 ltac:(lia)). nia. }
  assert (EI : 8 * (a_inoff a / 8 + a_stride a / 8 * c) = in_pos a c). { unfold in_pos. pose proof (Z.div_mod (a_inoff a) 8 ltac:(lia)). pose proof (Z.div_mod (a_stride a) 8 ltac:(lia)). nia. }
  cbv zeta. rewrite EO, EI. rewrite EL in *. cbn [elem] in *. cbn [opt_get]. rewrite aget_ok, bind_done by lia. set (n := nth (Z.to_nat c) l 0) in *.
  assert (P0 : 0 <= out_pos a c) by (unfold out_pos; nia). assert (Q0 : 0 <= in_pos a c) by (unfold in_pos; nia).
  unfold item_core, without. cbn [m_olen m_out m_ret opt_get]. rewrite bind_done.
  assert (D8 : 8 * (n / 8) = n) by (pose proof (Z.div_mod n 8 ltac:(lia)); lia).
  assert (D7 : 8 * ((n + 7) / 8) = n).
  { pose proof (Z.div_mod (n + 7) 8 ltac:(lia)). pose proof (Z.mod_pos_bound (n + 7) 8 ltac:(lia)). pose proof (Z.div_mod n 8 ltac:(lia)). lia. }
  rewrite (core_all e _ n _ SIZE_MAX x); auto; [|apply is_bytes_skipn, (ly_in _ _ _ HL)|now apply is_bytes_skipn| | |unfold SIZE_MAX; lia|lia|].
  2: { rewrite D7. unfold lenZ in *. rewrite skipn_length. lia. }
  2: { unfold lenZ in *. rewrite skipn_length. lia. }
  2: { unfold words_of. rewrite D8. exact HD. }
  rewrite bind_done. cbn [opt_set]. rewrite bind_done.
  assert (EV : opt_set (if rets then m_ret m else None) c 0 = Done (if rets then Some (firstn (Z.to_nat c) R ++ 0 :: skipn (S (Z.to_nat c)) R) else None)).
  { destruct rets; [|reflexivity]. rewrite ER. cbn [opt_set]. rewrite aset_ok by lia. reflexivity. }
  rewrite EV, bind_done. set (o := Z.to_nat (out_pos a c)).
  assert (OL : (o + length x <= length (m_out m))%nat) by (unfold o, lenZ in *; lia).
  assert (LF : length (firstn o (m_out m)) = o) by (rewrite firstn_length; lia).
  eexists. split; [reflexivity|]. cbn [m_out m_ret].
  assert (EN : Z.to_nat (out_pos a (c + 1)) = (o + Z.to_nat (a_size a))%nat) by (unfold o, out_pos; nia).
  split; [|split; [|split; [|split]]].
  - rewrite !app_length, !skipn_length, LF. lia.
  - unfold bytes_at, slice. fold o. rewrite skipn_app, LF, skipn_all2 by lia. rewrite Nat.sub_diag. cbn [app skipn].
    rewrite firstn_app. replace (Z.to_nat (a_size a) - length x)%nat with O by (unfold lenZ in *; lia). cbn [firstn]. apply app_nil_r.
  - unfold bytes_at, slice. rewrite EN, skipn_app, LF, skipn_all2 by lia. cbn [app]. replace (o + Z.to_nat (a_size a) - o)%nat with (Z.to_nat (a_size a)) by lia.
    rewrite skipn_app. apply firstn_app_exact. rewrite skipn_length. unfold lenZ. lia.
  - intros i Hi. rewrite <- (firstn_skipn o (m_out m)) at 3. assert (o = Z.to_nat (out_pos a c)) by reflexivity.
    destruct (Nat.lt_ge_cases i o) as [G|G].
    + rewrite !app_nth1 by lia. reflexivity.
    + rewrite !(app_nth2 (firstn o (m_out m))) by lia. rewrite LF. assert ((length x <= i - o)%nat) by (unfold lenZ in *; lia).
      rewrite app_nth2 by lia. rewrite <- (firstn_skipn (length x) (skipn o (m_out m))) at 2.
      assert (LX : length (firstn (length x) (skipn o (m_out m))) = length x) by (rewrite firstn_length, skipn_length; lia).
      rewrite (app_nth2 (firstn _ _)) by lia. now rewrite LX.
  - intros ->. cbn [elem]. rewrite app_nth2 by (rewrite firstn_length; lia). rewrite firstn_length.
    replace (Z.to_nat c - Nat.min (Z.to_nat c) (length R))%nat with O by (unfold lenZ in *; lia). reflexivity.
Qed.
Print Assumptions C88_every_long_chunk_overruns_refuted.
(** The first chunk of C88_other_chunk_refuted: 40 bytes in a chunk of 32. *)
Example C88_overrun_case : layout_ok 2 (over_args zeros_z) over_mem /\ sizes_ok (over_args zeros_z) /\ opt_get (a_map (over_args zeros_z)) 0 0 = Done 0 /\
  denotes_842 (bytes_at (a_in (over_args zeros_z)) (in_pos (over_args zeros_z) 0) (elem (a_ilen (over_args zeros_z)) 0)) osample /\
  a_size (over_args zeros_z) < lenZ osample < 2 ^ 63 /\ out_pos (over_args zeros_z) 0 + lenZ osample <= lenZ (m_out over_mem).
Proof.
  split; [apply over_layout; auto|]. split; [apply over_layout; auto|]. split; [reflexivity|]. split; [|vm_compute; intuition discriminate].
  change (bytes_at _ _ _) with (firstn (Z.to_nat (8 * (24 / 8))) osample_z).
  apply (proj1 (C42_ocl_core_exact LE osample_z 24 (repeat 0 40) 40 osample ltac:(vm_compute; repeat constructor; discriminate) ltac:(vm_compute; repeat constructor; discriminate)
    ltac:(lia) ltac:(vm_compute; discriminate) ltac:(vm_compute; intuition discriminate) ltac:(lia))). vm_compute. reflexivity.
Qed.
