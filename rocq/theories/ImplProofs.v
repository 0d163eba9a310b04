(** Proofs about the implementation descriptors. *)
From Coq Require Import ZArith List Bool Lia.
From Verif Require Import SpecBits CBase SpecCalls ChunkedModel SpecChunked CryptodevModel SpecCryptodev ChunkedProofs CryptodevProofs ImplModel SpecImpl.
Import ListNotations.
Open Scope Z_scope.

Lemma divides_suffices a : (exists q, preferred_alignment a = q * required_alignment a) -> preferred_suffices a.
Proof.
  intros (q & E) buffer stride i (x & ->) (y & ->). exists (x * q + i * y). rewrite E. ring.
Qed.

Lemma aix_spec f : well_behaved f -> as_single_calls (2 ^ 32) f (aix842_chunked f).
Proof. intros [A B]. apply chunked_spec. now constructor. Qed.

Section Hw.
Variables (pagesize m mask k : Z) (p0 : process).
Hypothesis Hm : 0 <= m.
Hypothesis Hpage : pagesize = 2 ^ m.
Hypothesis Hk : 0 <= k <= 16.
Hypothesis Hmask : mask = 2 ^ k - 1.
Hypothesis Hp0 : p_tss p0 = [].
Let info := Some mask.

Definition masks (p : process) : Prop := Forall (fun x => ctx_mask (snd x) = Some mask) (p_tss p).
Lemma init_mask w err c w' : c842_ctx_init info w = ((err, c), w') -> err = 0 -> err <> 0 \/ ctx_mask c = Some mask.
Proof using.
  unfold info. intros H E. right. revert H. unfold c842_ctx_init.
  destruct (os_open w) as [[r fd] w1]. destruct (Z.eqb_spec r 0) as [_|N]; cbn [negb].
  2: { intros [= <- <- <-]. clear - E N. lia. }
  destruct (os_call w1) as [r1 w2]. destruct (Z.eqb_spec r1 0) as [_|N]; cbn [negb].
  2: { destruct (os_close fd w2) as [r2 w3]. intros [= <- <- <-]. clear - E N. lia. }
  destruct (os_call w2) as [r2 w3]. destruct (Z.eqb_spec r2 0) as [_|N]; cbn [negb].
  2: { destruct (os_close fd w3) as [r3 w4]. intros [= <- <- <-]. clear - E N. lia. }
  destruct (os_call w3) as [r3 w4]. destruct (Z.eqb_spec r3 0) as [_|N]; cbn [negb].
  2: { destruct (os_call w4) as [r4 w5], (os_close fd w5) as [r5 w6]. intros [= <- <- <-]. clear - E N. lia. }
  intros [= <- <- <-]. reflexivity.
Qed.
Lemma ctx_masks t p r c p' : masks p -> get_thread_cryptodev_ctx info t p = Done (r, c, p') ->
  masks p' /\ match c with None => True | Some c => ctx_mask c = Some mask end.
Proof using.
  unfold get_thread_cryptodev_ctx. intros M.
  assert (M1 : masks (create_thread_ctx_key p)).
  { unfold masks, create_thread_ctx_key in *. destruct (p_once p); auto. destruct (os_call (p_os p)). exact M. }
  set (q := create_thread_ctx_key p) in *. clearbody q. clear M p.
  destruct (p_key_err q =? 0); cbn [negb]; [|intros [= <- <- <-]; auto].
  destruct (p_key q); cbn [negb]; [|discriminate].
  destruct (tss_find t (p_tss q)) as [d|] eqn:F.
  { intros [= <- <- <-]. split; auto. apply tss_find_in in F. unfold masks in M1. rewrite Forall_forall in M1. exact (M1 _ F). }
  destruct (os_malloc (p_os q)) as [ok w]. destruct ok; cbn [negb]; [|intros [= <- <- <-]; auto].
  destruct (c842_ctx_init info w) as [[err d] w1] eqn:Ei. destruct (Z.eqb_spec err 0) as [E0|N]; cbn [negb]; [|intros [= <- <- <-]; auto].
  destruct (init_mask _ _ _ _ Ei E0) as [D|D]; [elim (D E0)|].
  destruct (os_call w1) as [r2 w2]. destruct (r2 =? 0); cbn [negb].
  - intros [= <- <- <-]. split; auto. constructor; auto.
  - destruct (c842_ctx_deinit d w2) as [r3 w3]. intros [= <- <- <-]. auto.
Qed.
Lemma exit_masks t p : masks p -> masks (thread_exit t p).
Proof using.
  clear Hk. unfold masks, thread_exit. intros M. destruct (tss_find t (p_tss p)); auto. destruct (c842_ctx_deinit _ _). cbn [p_tss].
  rewrite Forall_forall in *. intros x Hx. apply filter_In in Hx. exact (M x (proj1 Hx)).
Qed.

(** The static variable: not set yet, or one of two values, which every Get so far returned. *)
Definition final (a : alignments) : Prop := a = mkA (2 ^ k) (2 ^ m) \/ a = mkA (2 ^ 16) (2 ^ m).
Lemma history2_inv h a p : history2 pagesize info p0 h a p ->
  masks p /\ ((a = mkA 0 0 /\ forall t b, ~ In (Get t, b) h) \/ (final a /\ forall t b, In (Get t, b) h -> b = a)).
Proof using Hm Hpage Hk Hmask Hp0.
  assert (P1 : 0 < 2 ^ m) by (apply Z.pow_pos_nonneg; lia). assert (P2 : 0 < 2 ^ k) by (apply Z.pow_pos_nonneg; lia).
  induction 1 as [|h a p t a' p' H [M IH] G|h a p t r c p' H [M IH] G|h a p t H [M IH]].
  - split; [unfold masks; rewrite Hp0; constructor|]. left. split; auto.
  - unfold get_hw842_implementation, hw842_get_required_alignment in G. destruct IH as [[-> N]|[F A]].
    + cbn [required_alignment preferred_alignment Z.eqb] in G.
      destruct (get_thread_cryptodev_ctx info t p) as [[[r c] p1]| |] eqn:E; cbn [bind] in G; try discriminate.
      destruct (ctx_masks _ _ _ _ _ M E) as [M1 C]. destruct c as [c|].
      * rewrite C in G. cbn [bind] in G. injection G as <- <-. split; auto. right. split; [left; rewrite Hmask, Hpage; f_equal; lia|].
        intros u b I. apply in_app_or in I. destruct I as [I|[[= _ <-]|[]]]; [elim (N _ _ I)|reflexivity].
      * cbn [bind] in G. injection G as <- <-. split; auto. right. split; [right; rewrite Hpage; reflexivity|].
        intros u b I. apply in_app_or in I. destruct I as [I|[[= _ <-]|[]]]; [elim (N _ _ I)|reflexivity].
    + assert (R : required_alignment a <> 0 /\ preferred_alignment a <> 0) by (destruct F as [-> | ->]; cbn [required_alignment preferred_alignment]; lia).
      destruct (Z.eqb_spec (required_alignment a) 0); [lia|]. destruct (Z.eqb_spec (preferred_alignment a) 0); [lia|].
      cbn [bind] in G. injection G as <- <-. replace (mkA (required_alignment a) (preferred_alignment a)) with a by (destruct a; reflexivity).
      split; auto. right. split; auto. intros u b I. apply in_app_or in I. destruct I as [I|[[= _ <-]|[]]]; [apply (A _ _ I)|reflexivity].
  - destruct (ctx_masks _ _ _ _ _ M G) as [M1 _]. split; auto. destruct IH as [[-> N]|[F A]]; [left|right]; (split; auto);
      intros u b I; apply in_app_or in I; destruct I as [I|[I|[]]]; try discriminate; [elim (N _ _ I)|apply (A _ _ I)].
  - split; [now apply exit_masks|]. destruct IH as [[-> N]|[F A]]; [left|right]; (split; auto);
      intros u b I; apply in_app_or in I; destruct I as [I|[I|[]]]; try discriminate; [elim (N _ _ I)|apply (A _ _ I)].
Qed.
End Hw.

Lemma pow_divides a b : 0 <= a <= b -> exists q, 2 ^ b = q * 2 ^ a.
Proof. intros H. exists (2 ^ (b - a)). rewrite <- Z.pow_add_r by lia. f_equal. lia. Qed.

Theorem hw_descriptor : forall m k script fd h a p, 0 <= m -> 0 <= k <= 16 ->
  history2 (2 ^ m) (Some (2 ^ k - 1)) (fresh script fd) h a p ->
  forall t b, In (Get t, b) h -> b = a /\ (b = mkA (2 ^ k) (2 ^ m) \/ b = mkA (2 ^ 16) (2 ^ m)) /\ stream_accepts b = true.
Proof.
  intros m k script fd h a p Hm Hk H t b I.
  destruct (history2_inv (2 ^ m) m (2 ^ k - 1) k (fresh script fd) Hm eq_refl Hk eq_refl eq_refl h a p H) as [_ [[_ N]|[F A]]]; [elim (N _ _ I)|].
  pose proof (A _ _ I) as ->. split; auto. split; [exact F|]. unfold stream_accepts. apply Z.eqb_eq.
  destruct F as [-> | ->]; cbn [required_alignment]; [|reflexivity]. destruct (pow_divides k 16 Hk) as (q & E). change 65536 with (2 ^ 16). rewrite E. apply Z.mod_mul.
  assert (0 < 2 ^ k) by (apply Z.pow_pos_nonneg; lia). lia.
Qed.

Theorem hw_buffers : forall m k script fd h a p, 0 <= k <= 16 -> k <= m ->
  history2 (2 ^ m) (Some (2 ^ k - 1)) (fresh script fd) h a p ->
  forall t b buffer i, In (Get t, b) h -> aligned_to (preferred_alignment b) buffer -> 0 <= buffer + i * 65536 < 2 ^ 64 - 2 ^ 16 ->
  is_pointer_aligned (buffer + i * 65536) (2 ^ k - 1) = true.
Proof.
  intros m k script fd h a p Hk Hkm H t b buffer i I (q & ->) R.
  destruct (hw_descriptor m k script fd h a p ltac:(lia) Hk H t b I) as (_ & F & _).
  rewrite aligned_ok by auto. apply Z.eqb_eq.
  assert (P : preferred_alignment b = 2 ^ m) by (destruct F as [-> | ->]; reflexivity). rewrite P.
  destruct (pow_divides k m ltac:(lia)) as (x & ->). destruct (pow_divides k 16 Hk) as (y & E). change 65536 with (2 ^ 16). rewrite E.
  replace (q * (x * 2 ^ k) + i * (y * 2 ^ k)) with ((q * x + i * y) * 2 ^ k) by ring. apply Z.mod_mul.
  assert (0 < 2 ^ k) by (apply Z.pow_pos_nonneg; lia). lia.
Qed.
