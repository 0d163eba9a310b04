(** The compressors with an explicit heap do what the models without one do, and give back every block they have taken. *)
From Coq Require Import ZArith List Bool Lia Permutation.
From Verif Require Import CBase BitsLemmas SerialCompModel SerialDict HeapModel HeapLists HeapTables OptCompModel.
Import ListNotations.
Open Scope Z_scope.

(** The tables [ts] in the heap [h] are the dictionaries [ds], and all other blocks are [R]. *)
Definition rel (h : heap) (ts : htabs) (ds : dicts) (R : heap) : Prop :=
  exists n8 i8 b8 L8 n4 i4 b4 L4 n2 i2 b2 L2,
    ts = mkHtabs (mkHtab n8 i8 b8) (mkHtab n4 i4 b4) (mkHtab n2 i2 b2) /\
    ds = mkDicts (mkDict n8 (abs L8)) (mkDict n4 (abs L4)) (mkDict n2 (abs L2)) /\
    tab_ok 256 n8 i8 L8 /\ tab_ok 512 n4 i4 L4 /\ tab_ok 256 n2 i2 L2 /\
    holds h (tab_blocks L8 b8 ++ tab_blocks L4 b4 ++ tab_blocks L2 b2 ++ R).

Lemma replace_range t idx v t' : replace_hash t idx v = Done t' -> 0 <= idx < lenZ (d_node t).
Proof.
  unfold replace_hash, aget. destruct ((0 <=? idx) && (idx <? lenZ (d_node t))) eqn:E; [|discriminate]. intros _. apply andb_true_iff in E. lia.
Qed.
Lemma dict_eta t n H : d_node t = n -> d_ht t = H -> t = mkDict n H.
Proof. destruct t; cbn; now intros -> ->. Qed.

Section P.
Variable alloc : heap -> Z.
Variable junk M : Z.
Hypothesis G : good_alloc alloc M.

Lemma rep8 h ts ds R idx v t : lenZ R + 2051 <= M -> rel h ts ds R -> replace_hash (dict8 ds) idx v = Done t ->
  exists t' h', hreplace_hash alloc junk u8 h (tab8 ts) idx v = Done (t', h') /\ rel h' (mkHtabs t' (tab4 ts) (tab2 ts)) (mkDicts t (dict4 ds) (dict2 ds)) R.
Proof.
  intros MB (n8 & i8 & b8 & L8 & n4 & i4 & b4 & L4 & n2 & i2 & b2 & L2 & -> & -> & T8 & T4 & T2 & H) RH.
  cbn [dict8 dict4 dict2 tab8 tab4 tab2] in *.
  pose proof (replace_range _ _ _ _ RH) as B. cbn [d_node] in B. unfold lenZ in B. rewrite (to_len _ _ _ _ T8) in B.
  pose proof (tab_blocks_bound _ _ _ _ b4 T4) as B4. pose proof (tab_blocks_bound _ _ _ _ b2 T2) as B2.
  destruct (hreplace_ok alloc junk M u8 256 h n8 i8 b8 L8 (tab_blocks L4 b4 ++ tab_blocks L2 b2 ++ R) idx v t G) as (i8' & b8' & h' & L8' & E & H' & T' & A'); auto.
  { unfold lenZ in *. rewrite !app_length. lia. }
  { unfold u8. apply Z.mod_small. lia. }
  do 2 eexists. split; [exact E|]. exists (d_node t), i8', b8', L8', n4, i4, b4, L4, n2, i2, b2, L2.
  repeat (split; [first [reflexivity|assumption|f_equal; now apply dict_eta]|]). exact H'.
Qed.
Lemma rep4 h ts ds R idx v t : lenZ R + 2051 <= M -> rel h ts ds R -> replace_hash (dict4 ds) idx v = Done t ->
  exists t' h', hreplace_hash alloc junk u16 h (tab4 ts) idx v = Done (t', h') /\ rel h' (mkHtabs (tab8 ts) t' (tab2 ts)) (mkDicts (dict8 ds) t (dict2 ds)) R.
Proof.
  intros MB (n8 & i8 & b8 & L8 & n4 & i4 & b4 & L4 & n2 & i2 & b2 & L2 & -> & -> & T8 & T4 & T2 & H) RH.
  cbn [dict8 dict4 dict2 tab8 tab4 tab2] in *.
  pose proof (replace_range _ _ _ _ RH) as B. cbn [d_node] in B. unfold lenZ in B. rewrite (to_len _ _ _ _ T4) in B.
  pose proof (tab_blocks_bound _ _ _ _ b8 T8) as B8. pose proof (tab_blocks_bound _ _ _ _ b2 T2) as B2.
  destruct (hreplace_ok alloc junk M u16 512 h n4 i4 b4 L4 (tab_blocks L8 b8 ++ tab_blocks L2 b2 ++ R) idx v t G) as (i4' & b4' & h' & L4' & E & H' & T' & A'); auto.
  { unfold lenZ in *. rewrite !app_length. lia. }
  { eapply holds_perm; [exact H|perm]. }
  { unfold u16. apply Z.mod_small. lia. }
  do 2 eexists. split; [exact E|]. exists n8, i8, b8, L8, (d_node t), i4', b4', L4', n2, i2, b2, L2.
  repeat (split; [first [reflexivity|assumption|f_equal; now apply dict_eta]|]). eapply holds_perm; [exact H'|perm].
Qed.
Lemma rep2 h ts ds R idx v t : lenZ R + 2051 <= M -> rel h ts ds R -> replace_hash (dict2 ds) idx v = Done t ->
  exists t' h', hreplace_hash alloc junk u8 h (tab2 ts) idx v = Done (t', h') /\ rel h' (mkHtabs (tab8 ts) (tab4 ts) t') (mkDicts (dict8 ds) (dict4 ds) t) R.
Proof.
  intros MB (n8 & i8 & b8 & L8 & n4 & i4 & b4 & L4 & n2 & i2 & b2 & L2 & -> & -> & T8 & T4 & T2 & H) RH.
  cbn [dict8 dict4 dict2 tab8 tab4 tab2] in *.
  pose proof (replace_range _ _ _ _ RH) as B. cbn [d_node] in B. unfold lenZ in B. rewrite (to_len _ _ _ _ T2) in B.
  pose proof (tab_blocks_bound _ _ _ _ b8 T8) as B8. pose proof (tab_blocks_bound _ _ _ _ b4 T4) as B4.
  destruct (hreplace_ok alloc junk M u8 256 h n2 i2 b2 L2 (tab_blocks L8 b8 ++ tab_blocks L4 b4 ++ R) idx v t G) as (i2' & b2' & h' & L2' & E & H' & T' & A'); auto.
  { unfold lenZ in *. rewrite !app_length. lia. }
  { eapply holds_perm; [exact H|perm]. }
  { unfold u8. apply Z.mod_small. lia. }
  do 2 eexists. split; [exact E|]. exists n8, i8, b8, L8, n4, i4, b4, L4, (d_node t), i2', b2', L2'.
  repeat (split; [first [reflexivity|assumption|f_equal; now apply dict_eta]|]). eapply holds_perm; [exact H'|perm].
Qed.

Lemma bind_inv {A B} (x : outcome A) (f : A -> outcome B) r : bind x f = Done r -> exists a, x = Done a /\ f a = Done r.
Proof. destruct x; cbn [bind]; try discriminate. eauto. Qed.
Ltac inv H := let a := fresh "a" in let E := fresh "E" in apply bind_inv in H; destruct H as (a & E & H).

Lemma hupdate_ok h ts ds dt pos R ds' : lenZ R + 2051 <= M -> rel h ts ds R -> update_hashtables ds dt pos = Done ds' ->
  exists ts' h', hupdate_hashtables alloc junk h ts dt pos = Done (ts', h') /\ rel h' ts' ds' R.
Proof.
  intros MB RL U. unfold update_hashtables in U. unfold hupdate_hashtables. cbv zeta in *.
  set (n8 := Z.shiftr pos 3 mod _) in *. set (n4 := Z.shiftr pos 2 mod _) in *. set (n2 := Z.shiftr pos 1 mod _) in *.
  apply bind_inv in U. destruct U as (t8 & U8 & U). apply bind_inv in U. destruct U as (t40 & U40 & U). apply bind_inv in U. destruct U as (t41 & U41 & U).
  apply bind_inv in U. destruct U as (t20 & U20 & U). apply bind_inv in U. destruct U as (t21 & U21 & U). apply bind_inv in U. destruct U as (t22 & U22 & U).
  apply bind_inv in U. destruct U as (t23 & U23 & U). injection U as <-.
  apply bind_inv in U40, U41, U20, U21, U22, U23.
  destruct U40 as (v40 & -> & U40), U41 as (v41 & -> & U41), U20 as (v20 & -> & U20), U21 as (v21 & -> & U21), U22 as (v22 & -> & U22), U23 as (v23 & -> & U23).
  destruct (rep8 _ _ _ _ _ _ _ MB RL U8) as (x8 & h1 & -> & R1). rewrite !bind_done.
  destruct (rep4 _ _ _ _ _ _ _ MB R1 U40) as (x40 & h2 & EQ & R2). cbn [tab8 tab4 tab2 dict8 dict4 dict2] in EQ, R2. rewrite EQ. clear EQ. rewrite !bind_done.
  destruct (rep4 _ _ _ _ _ _ _ MB R2 U41) as (x41 & h3 & EQ & R3). cbn [tab8 tab4 tab2 dict8 dict4 dict2] in EQ, R3. rewrite EQ. clear EQ. rewrite !bind_done.
  destruct (rep2 _ _ _ _ _ _ _ MB R3 U20) as (x20 & h4 & EQ & R4). cbn [tab8 tab4 tab2 dict8 dict4 dict2] in EQ, R4. rewrite EQ. clear EQ. rewrite !bind_done.
  destruct (rep2 _ _ _ _ _ _ _ MB R4 U21) as (x21 & h5 & EQ & R5). cbn [tab8 tab4 tab2 dict8 dict4 dict2] in EQ, R5. rewrite EQ. clear EQ. rewrite !bind_done.
  destruct (rep2 _ _ _ _ _ _ _ MB R5 U22) as (x22 & h6 & EQ & R6). cbn [tab8 tab4 tab2 dict8 dict4 dict2] in EQ, R6. rewrite EQ. clear EQ. rewrite !bind_done.
  destruct (rep2 _ _ _ _ _ _ _ MB R6 U23) as (x23 & h7 & EQ & R7). cbn [tab8 tab4 tab2 dict8 dict4 dict2] in EQ, R7. rewrite EQ. clear EQ. rewrite !bind_done.
  do 2 eexists. split; [reflexivity|exact R7].
Qed.

(** The searches. *)
Lemma hcheck_index_ok h t d dv a n : (forall v, hfind_index h t v = Done (find_index d v)) -> hcheck_index h t dv a n = check_index d dv a n.
Proof.
  intros F. unfold hcheck_index, check_index. destruct (aget a n) as [i| |]; cbn [bind]; auto. destruct (i =? INDEX_NOT_CHECKED); auto.
  destruct (aget dv n) as [v| |]; cbn [bind]; auto. now rewrite F, bind_done.
Qed.
Lemma rel_find h ts ds R : rel h ts ds R ->
  (forall v, hfind_index h (tab8 ts) v = Done (find_index (dict8 ds) v)) /\
  (forall v, hfind_index h (tab4 ts) v = Done (find_index (dict4 ds) v)) /\
  (forall v, hfind_index h (tab2 ts) v = Done (find_index (dict2 ds) v)).
Proof.
  intros (n8 & i8 & b8 & L8 & n4 & i4 & b4 & L4 & n2 & i2 & b2 & L2 & -> & -> & T8 & T4 & T2 & H). cbn [dict8 dict4 dict2 tab8 tab4 tab2].
  split; [|split]; intros v.
  - eapply hfind_index_ok; [exact T8|exact H].
  - apply (hfind_index_ok 512 h n4 i4 b4 L4 (tab_blocks L8 b8 ++ tab_blocks L2 b2 ++ R)); auto. eapply holds_perm; [exact H|perm].
  - apply (hfind_index_ok 256 h n2 i2 b2 L2 (tab_blocks L8 b8 ++ tab_blocks L4 b4 ++ R)); auto. eapply holds_perm; [exact H|perm].
Qed.
Lemma hcheck_ops_ok h ts ds R dt : rel h ts ds R -> forall l ix b, hcheck_ops h ts dt ix l b = check_ops ds dt ix l b.
Proof.
  intros RL. destruct (rel_find _ _ _ _ RL) as (F8 & F4 & F2). induction l as [|t l IH]; intros ix b; cbn [hcheck_ops check_ops]; auto.
  rewrite (hcheck_index_ok _ _ _ _ _ _ F8), (hcheck_index_ok _ _ _ _ _ _ F4), (hcheck_index_ok _ _ _ _ _ _ F2).
  destruct (negb (Z.land t OP_ACTION_INDEX =? 0)); auto.
  match goal with |- bind ?x _ = _ => destruct x as [[[[|]|] ix']| |] end; cbn [bind]; auto.
Qed.
Lemma hfind_template_ok h ts ds R dt : rel h ts ds R -> forall k ix i, hfind_template k h ts dt ix i = find_template k ds dt ix i.
Proof.
  intros RL. induction k as [|k IH]; intros ix i; cbn [hfind_template find_template]; auto.
  unfold hcheck_template, check_template. destruct (i >=? OPS_MAX); [rewrite !bind_done; apply IH|]. rewrite (hcheck_ops_ok _ _ _ _ _ RL).
  match goal with |- bind ?x _ = _ => destruct x as [[[|] ix']| |] end; cbn [bind]; auto.
Qed.
Lemma hprocess_next_ok e h ts ds R w inp pos dt : rel h ts ds R -> hprocess_next e w inp pos h ts dt = process_next e w inp pos ds dt.
Proof. intros RL. unfold hprocess_next, process_next. cbv zeta. now rewrite (hfind_template_ok _ _ _ _ _ RL). Qed.

(** The main loop. *)
Lemma hcomp_loop_ok e inp R : lenZ R + 2051 <= M -> forall f w h ts ds pos ilen last rc r, rel h ts ds R ->
  comp_loop e f inp w ds pos ilen last rc = Done r ->
  exists ts' ds' h', hcomp_loop alloc junk e f inp w h ts pos ilen last rc = Done (r, ts', h') /\ rel h' ts' ds' R.
Proof.
  intros MB. induction f as [|f IH]; intros w h ts ds pos ilen last rc r RL CL; cbn [comp_loop hcomp_loop] in *.
  - destruct (ilen >? 7); [discriminate|]. injection CL as <-. exists ts, ds, h. now split.
  - destruct (ilen >? 7). 2:{ injection CL as <-. exists ts, ds, h. now split. }
    inv CL. rewrite E, bind_done. inv CL. rewrite E0, bind_done. rename a0 into dt. cbv zeta in *.
    assert (REP : forall w rc r, (ds' <- update_hashtables ds dt pos ;; comp_loop e f inp w ds' (pos + 8) (ilen - 8) a rc) = Done r ->
      exists ts' ds' h', ('(ts', h') <- hupdate_hashtables alloc junk h ts dt pos ;; hcomp_loop alloc junk e f inp w h' ts' (pos + 8) (ilen - 8) a rc) = Done (r, ts', h') /\ rel h' ts' ds' R).
    { intros w1 rc1 r1 C. inv C. destruct (hupdate_ok _ _ _ _ _ _ _ MB RL E1) as (ts1 & h1 & -> & RL1). rewrite bind_done. eapply IH; eauto. }
    assert (EMIT : forall w r, ('(ret, w') <- (if a =? 0 then add_zeros_template e w else process_next e w inp pos ds dt) ;;
         if negb (ret =? 0) then Done (Some ret, w', pos, ilen, 0) else ds' <- update_hashtables ds dt pos ;; comp_loop e f inp w' ds' (pos + 8) (ilen - 8) a 0) = Done r ->
      exists ts' ds' h', ('(ret, w') <- (if a =? 0 then add_zeros_template e w else hprocess_next e w inp pos h ts dt) ;;
         if negb (ret =? 0) then Done (Some ret, w', pos, ilen, 0, ts, h) else '(ts', h') <- hupdate_hashtables alloc junk h ts dt pos ;; hcomp_loop alloc junk e f inp w' h' ts' (pos + 8) (ilen - 8) a 0) = Done (r, ts', h') /\ rel h' ts' ds' R).
    { intros w1 r1 C. rewrite (hprocess_next_ok _ _ _ _ _ _ _ _ _ RL). inv C. rewrite E1, bind_done. destruct a0 as [ret w2]. destruct (negb (ret =? 0)).
      - injection C as <-. exists ts, ds, h. now split.
      - now apply REP. }
    destruct ((a =? last) && _); [now apply REP|]. destruct (negb _).
    + inv CL. rewrite E1, bind_done. destruct a0 as [x w1]. destruct (a =? last); [now apply REP|now apply EMIT].
    + now apply EMIT.
Qed.

Lemma cleanup_ok h p ts ds R o : rel h ts ds ((p, o) :: R) -> exists h', cleanup h p ts = Done h' /\ holds h' R.
Proof.
  intros (n8 & i8 & b8 & L8 & n4 & i4 & b4 & L4 & n2 & i2 & b2 & L2 & -> & -> & T8 & T4 & T2 & H). unfold cleanup. cbn [tab8 tab4 tab2].
  destruct (destroy_ok _ _ _ _ _ _ _ T8 H) as (t1 & h1 & -> & H1). rewrite bind_done.
  destruct (destroy_ok _ _ _ _ _ _ _ T4 H1) as (t2 & h2 & -> & H2). rewrite bind_done.
  destruct (destroy_ok _ _ _ _ _ _ _ T2 H2) as (t3 & h3 & -> & H3). rewrite bind_done.
  destruct (holds_free _ _ _ _ H3) as (h4 & E & H4). eauto.
Qed.
Lemma rel_init h R : holds h R -> rel h init_htabs init_dicts R.
Proof.
  intros H. unfold init_htabs, init_dicts, init_dict.
  exists (repeat 0 256), [], 0, [], (repeat 0 512), [], 0, [], (repeat 0 256), [], 0, [].
  split; [reflexivity|]. split; [reflexivity|]. split; [apply tab_ok_empty|]. split; [apply tab_ok_empty|]. split; [apply tab_ok_empty|]. exact H.
Qed.

Lemma sw842_heap_ok e addr inp out olen h R r : lenZ R + 2052 <= M -> holds h R -> sw842_compress e addr inp out olen = Done r ->
  exists h', sw842_compress_heap alloc junk e addr inp out olen h = Done (r, h') /\ holds h' R.
Proof.
  intros MB H S. unfold sw842_compress_heap, sw842_compress in *. cbv zeta in *.
  destruct (holds_malloc alloc M h R BParam G H ltac:(lia)) as (p & h1 & -> & NZ & H1).
  rewrite (holds_get _ _ _ _ H1), bind_done. pose proof (rel_init _ _ H1) as RL.
  destruct (lenZ inp <? 8).
  - rewrite S, bind_done. destruct (cleanup_ok _ _ _ _ _ _ RL) as (h2 & -> & H2). rewrite bind_done. eauto.
  - inv S. rewrite E, bind_done. inv S. destruct a0 as [[[[early w1] pos] rem] rc].
    destruct (hcomp_loop_ok e inp ((p, BParam) :: R) ltac:(unfold lenZ in *; cbn [length]; lia) _ _ _ _ _ _ _ _ _ _ RL E0) as (ts & ds & h2 & -> & RL2).
    rewrite bind_done. rewrite S, bind_done. destruct (cleanup_ok _ _ _ _ _ _ RL2) as (h3 & -> & H3). rewrite bind_done. eauto.
Qed.
Lemma optsw842_heap_ok e iaddr oaddr inp out olen h R r : lenZ R + (if (iaddr mod 8 =? 0) && (oaddr mod 8 =? 0) then 2 else 2052) <= M -> holds h R -> optsw842_compress e iaddr oaddr inp out olen = Done r ->
  exists h', optsw842_compress_heap alloc junk e iaddr oaddr inp out olen h = Done (r, h') /\ holds h' R.
Proof.
  intros MB H S. unfold optsw842_compress_heap.
  destruct (negb (lenZ inp mod 8 =? 0)) eqn:E8. { rewrite S, bind_done. eauto. }
  destruct (negb (iaddr mod 8 =? 0) || negb (oaddr mod 8 =? 0)) eqn:EA.
  - apply sw842_heap_ok; auto. { destruct (iaddr mod 8 =? 0), (oaddr mod 8 =? 0); cbn in EA; try discriminate; cbn [andb] in MB; exact MB. } unfold optsw842_compress in S. rewrite E8, EA in S. exact S.
  - assert (MB2 : lenZ R + 2 <= M). { destruct (iaddr mod 8 =? 0), (oaddr mod 8 =? 0); cbn in EA; try discriminate; exact MB. }
    destruct (holds_malloc alloc M h R BParam G H ltac:(lia)) as (p & h1 & -> & NZ & H1).
    rewrite (holds_get _ _ _ _ H1), bind_done.
    destruct (holds_malloc alloc M h1 _ BStream G H1 ltac:(unfold lenZ in *; cbn [length]; lia)) as (s & h2 & -> & NZ2 & H2).
    rewrite (holds_get _ _ _ _ H2), bind_done, S, bind_done.
    destruct (holds_free _ _ _ _ H2) as (h3 & -> & H3). rewrite bind_done.
    destruct (holds_free _ _ _ _ H3) as (h4 & -> & H4). rewrite bind_done. eauto.
Qed.
End P.

(** * A malloc that fails *)
(** An address that is not in use. *)
Definition fresh (h : heap) : Z := 1 + fold_right Z.max 0 (map fst h).
Lemma fresh_ok h : fresh h <> 0 /\ ~ In (fresh h) (map fst h).
Proof.
  unfold fresh. set (l := map fst h). assert (P : 0 <= fold_right Z.max 0 l) by (induction l; cbn [fold_right]; lia). split; [lia|]. intros I.
  assert (Q : forall x, In x l -> x <= fold_right Z.max 0 l). { clear. clearbody l. induction l as [|y l IH]; intros x I; [destruct I|]. cbn [fold_right]. destruct I as [<-|I]; [lia|]. specialize (IH x I). lia. }
  specialize (Q _ I). lia.
Qed.
(** Either undefined or the same. *)
Definition ule {A} (x y : outcome A) : Prop := x = Undef \/ x = y.
Lemma ule_refl {A} (x : outcome A) : ule x x.
Proof. now right. Qed.
Lemma ule_undef {A} (y : outcome A) : ule Undef y.
Proof. now left. Qed.
Lemma ule_bind {A B} (x y : outcome A) (f g : A -> outcome B) : ule x y -> (forall a, ule (f a) (g a)) -> ule (bind x f) (bind y g).
Proof. intros [->| ->] F. { now left. } destruct y; cbn [bind]; auto using ule_refl. Qed.
Section Weak.
Variables alloc alloc' : heap -> Z.
Variable junk : Z.
Hypothesis W : forall h, alloc h = 0 \/ alloc h = alloc' h.

Ltac step := first [apply ule_refl | apply ule_undef | apply ule_bind; [|intros]].
Lemma weak_malloc h o : hmalloc alloc h o = (0, h) \/ hmalloc alloc h o = hmalloc alloc' h o.
Proof. unfold hmalloc. destruct (W h) as [->| ->]; [left; reflexivity|now right]. Qed.
Lemma weak_uhash_add h t a : ule (uhash_add alloc h t a) (uhash_add alloc' h t a).
Proof. unfold uhash_add. destruct (t_items t); [|apply ule_refl]. destruct (weak_malloc h BTable) as [->| ->]; [apply ule_undef|apply ule_refl]. Qed.
Lemma weak_add_new c h t i v : ule (add_new alloc junk c h t i v) (add_new alloc' junk c h t i v).
Proof.
  unfold add_new. apply ule_bind; [apply ule_refl|intros node]. cbv zeta. apply ule_bind; [apply ule_refl|intros a]. apply ule_bind.
  - destruct (a =? 0); [|apply ule_refl]. destruct (weak_malloc h (BNode junk junk)) as [->| ->]; [apply ule_undef|].
    destruct (hmalloc alloc' h _) as [b h1]. apply ule_bind; [apply ule_refl|intros [d x]]. apply ule_bind; [apply ule_refl|intros h2]. apply ule_bind; [apply ule_refl|intros h3].
    apply ule_bind; [apply weak_uhash_add|intros [t1 h4]]. apply ule_refl.
  - intros [[b t1] h1]. destruct (weak_malloc h1 (BEl junk junk junk)) as [->| ->]; [apply ule_undef|apply ule_refl].
Qed.
Lemma weak_replace c h t i v : ule (hreplace_hash alloc junk c h t i v) (hreplace_hash alloc' junk c h t i v).
Proof. unfold hreplace_hash. apply ule_bind; [apply ule_refl|intros [t1 h1]]. apply weak_add_new. Qed.
Lemma weak_update h ts dt pos : ule (hupdate_hashtables alloc junk h ts dt pos) (hupdate_hashtables alloc' junk h ts dt pos).
Proof.
  unfold hupdate_hashtables. cbv zeta. apply ule_bind; [apply weak_replace|intros [t8 h1]].
  do 6 (apply ule_bind; [apply ule_bind; [apply ule_refl|intros; apply weak_replace]|intros [? ?]]). apply ule_refl.
Qed.
Lemma weak_loop e inp : forall f w h ts pos ilen last rc,
  ule (hcomp_loop alloc junk e f inp w h ts pos ilen last rc) (hcomp_loop alloc' junk e f inp w h ts pos ilen last rc).
Proof.
  induction f as [|f IH]; intros; cbn [hcomp_loop]; (destruct (ilen >? 7); [|apply ule_refl]); [apply ule_refl|].
  apply ule_bind; [apply ule_refl|intros next]. apply ule_bind; [apply ule_refl|intros dt]. cbv zeta.
  assert (REP : forall w rc, ule ('(ts', h') <- hupdate_hashtables alloc junk h ts dt pos ;; hcomp_loop alloc junk e f inp w h' ts' (pos + 8) (ilen - 8) next rc)
      ('(ts', h') <- hupdate_hashtables alloc' junk h ts dt pos ;; hcomp_loop alloc' junk e f inp w h' ts' (pos + 8) (ilen - 8) next rc)).
  { intros. apply ule_bind; [apply weak_update|intros [ts1 h1]]. apply IH. }
  destruct ((next =? last) && _); [apply REP|]. destruct (negb _).
  - apply ule_bind; [apply ule_refl|intros [x w1]]. destruct (next =? last); [apply REP|].
    apply ule_bind; [apply ule_refl|intros [ret w2]]. destruct (negb _); [apply ule_refl|apply REP].
  - apply ule_bind; [apply ule_refl|intros [ret w2]]. destruct (negb _); [apply ule_refl|apply REP].
Qed.
Lemma weak_sw842 e addr inp out olen h : ule (sw842_compress_heap alloc junk e addr inp out olen h) (sw842_compress_heap alloc' junk e addr inp out olen h).
Proof.
  unfold sw842_compress_heap. cbv zeta. destruct (weak_malloc h BParam) as [->| ->]; [apply ule_undef|]. destruct (hmalloc alloc' h BParam) as [p h1].
  apply ule_bind; [apply ule_refl|intros _]. destruct (lenZ inp <? 8); [apply ule_refl|].
  apply ule_bind; [apply ule_refl|intros first]. apply ule_bind; [apply weak_loop|intros a]. apply ule_refl.
Qed.
Lemma weak_optsw842 e ia oa inp out olen h : ule (optsw842_compress_heap alloc junk e ia oa inp out olen h) (optsw842_compress_heap alloc' junk e ia oa inp out olen h).
Proof.
  unfold optsw842_compress_heap. destruct (negb _); [apply ule_refl|]. destruct (_ || _); [apply weak_sw842|].
  destruct (weak_malloc h BParam) as [->| ->]; [apply ule_undef|]. destruct (hmalloc alloc' h BParam) as [p h1].
  apply ule_bind; [apply ule_refl|intros _]. destruct (weak_malloc h1 BStream) as [->| ->]; [apply ule_undef|apply ule_refl].
Qed.
End Weak.
(** The same malloc, but with memory left. *)
Definition more (alloc : heap -> Z) (h : heap) : Z := if alloc h =? 0 then fresh h else alloc h.
Lemma more_good alloc M : (forall h, alloc h <> 0 -> ~ In (alloc h) (map fst h)) -> good_alloc (more alloc) M.
Proof.
  intros F h. destruct (fresh_ok h) as [F1 F2]. unfold more. destruct (Z.eqb_spec (alloc h) 0) as [E|E]; split; auto.
Qed.
Lemma more_weak alloc h : alloc h = 0 \/ alloc h = more alloc h.
Proof. unfold more. destruct (Z.eqb_spec (alloc h) 0); auto. Qed.
Lemma holds_self h : NoDup (map fst h) -> ~ In 0 (map fst h) -> holds h h.
Proof. intros. split; [assumption|]. split; [assumption|]. reflexivity. Qed.
