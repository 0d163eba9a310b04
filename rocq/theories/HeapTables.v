(** The hash tables of HeapModel.v do what those of SerialCompModel.v do, and their blocks are all accounted for. *)
From Coq Require Import ZArith List Bool Lia Permutation.
From Verif Require Import CBase BitsLemmas SerialCompModel SerialDict HeapModel HeapLists.
Import ListNotations.
Open Scope Z_scope.

(** A node of a table: its address, its data and its elements. *)
Definition entry := (Z * Z * list (Z * Z))%type.
Definition eaddr (x : entry) : Z := fst (fst x).
Definition ekey (x : entry) : Z := snd (fst x).
Definition eels (x : entry) : list (Z * Z) := snd x.
Definition e_blocks (x : entry) : heap := (eaddr x, BNode (ekey x) (first_of (eels x) 0)) :: els (eels x).
Definition n_blocks (L : list entry) : heap := flat_map e_blocks L.
Definition tab_blocks (L : list entry) (b : Z) : heap := (match L with [] => [] | _ => [(b, BTable)] end) ++ n_blocks L.
Definition abs1 (x : entry) : Z * list Z := (ekey x, map snd (eels x)).
Definition abs (L : list entry) : htable := rev (map abs1 L).

Lemma n_blocks_app L M : n_blocks (L ++ M) = n_blocks L ++ n_blocks M.
Proof. apply flat_map_app. Qed.
Lemma n_blocks_cons x L : n_blocks (x :: L) = e_blocks x ++ n_blocks L.
Proof. reflexivity. Qed.
Lemma tab_blocks_mid L1 x L2 b : tab_blocks (L1 ++ x :: L2) b = (b, BTable) :: n_blocks L1 ++ e_blocks x ++ n_blocks L2.
Proof. unfold tab_blocks. rewrite n_blocks_app, n_blocks_cons. destruct L1; reflexivity. Qed.

Lemma hash_find_app h g k : hash_find (h ++ g) k = match hash_find h k with Some l => Some l | None => hash_find g k end.
Proof. induction h as [|[k' l] h IH]; cbn [app hash_find]; auto. destruct (k' =? k); auto. Qed.
Lemma hash_upd_app h g k l : hash_upd (h ++ g) k l = hash_upd h k l ++ hash_upd g k l.
Proof. induction h as [|[k' l'] h IH]; cbn [app hash_upd]; auto. destruct (k' =? k); cbn [app]; now rewrite IH. Qed.
Lemma hash_del_app h g k : hash_del (h ++ g) k = hash_del h k ++ hash_del g k.
Proof. induction h as [|[k' l'] h IH]; cbn [app hash_del]; auto. destruct (k' =? k); cbn [app]; now rewrite IH. Qed.
Lemma abs_app L M : abs (L ++ M) = abs M ++ abs L.
Proof. unfold abs. now rewrite map_app, rev_app_distr. Qed.
Lemma abs_cons x L : abs (x :: L) = abs L ++ [abs1 x].
Proof. reflexivity. Qed.
Lemma hash_upd_out L k l : ~ In k (map ekey L) -> hash_upd (abs L) k l = abs L.
Proof.
  induction L as [|x L IH]; intros N; auto. cbn [map] in N. rewrite abs_cons, hash_upd_app, IH by (intros I; apply N; now right).
  cbn [hash_upd abs1]. destruct (Z.eqb_spec (ekey x) k); [exfalso; apply N; now left|]. reflexivity.
Qed.
Lemma hash_del_out L k : ~ In k (map ekey L) -> hash_del (abs L) k = abs L.
Proof.
  induction L as [|x L IH]; intros N; auto. cbn [map] in N. rewrite abs_cons, hash_del_app, IH by (intros I; apply N; now right).
  cbn [hash_del abs1]. destruct (Z.eqb_spec (ekey x) k); [exfalso; apply N; now left|]. reflexivity.
Qed.
Lemma hash_find_out L k : ~ In k (map ekey L) -> hash_find (abs L) k = None.
Proof.
  induction L as [|x L IH]; intros N; auto. cbn [map] in N. rewrite abs_cons, hash_find_app, IH by (intros I; apply N; now right).
  cbn [hash_find abs1]. destruct (Z.eqb_spec (ekey x) k); [exfalso; apply N; now left|]. reflexivity.
Qed.

(** The nodes before and behind that with the data [k]. *)
Lemma split_key L k : NoDup (map ekey L) ->
  (~ In k (map ekey L) /\ forall h R, holds h (n_blocks L ++ R) -> uhash_find h (map eaddr L) k = Done 0) \/
  (exists (L1 : list entry) a l (L2 : list entry), L = L1 ++ @cons entry (a, k, l) L2 /\ ~ In k (map ekey L1) /\ ~ In k (map ekey L2) /\
     forall h R, holds h (n_blocks L ++ R) -> uhash_find h (map eaddr L) k = Done a).
Proof.
  induction L as [|[[a k'] l] L IH]; intros N.
  - left. split; auto.
  - cbn [map] in N. inversion N as [|? ? NI N']; subst. change (ekey (a, k', l)) with k' in *.
    destruct (Z.eqb_spec k' k) as [->|NK].
    + right. exists [], a, l, L. split; [reflexivity|]. split; [intros []|]. split; [exact NI|].
      intros h R H. cbn [map uhash_find]. change (eaddr (a, k, l)) with a.
      assert (H0 : holds h ((a, BNode k (first_of l 0)) :: els l ++ n_blocks L ++ R)) by (eapply holds_perm; [exact H|rewrite n_blocks_cons; unfold e_blocks; cbn [eaddr ekey eels fst snd]; perm]).
      now rewrite (holds_get_node _ _ _ _ _ H0), bind_done, Z.eqb_refl.
    + assert (ST : forall h R, holds h (n_blocks ((a, k', l) :: L) ++ R) -> uhash_find h (map eaddr ((a, k', l) :: L)) k = uhash_find h (map eaddr L) k).
      { intros h R H. cbn [map uhash_find]. change (eaddr (a, k', l)) with a.
        assert (H0 : holds h ((a, BNode k' (first_of l 0)) :: els l ++ n_blocks L ++ R)) by (eapply holds_perm; [exact H|rewrite n_blocks_cons; unfold e_blocks; cbn [eaddr ekey eels fst snd]; perm]).
        rewrite (holds_get_node _ _ _ _ _ H0), bind_done. destruct (Z.eqb_spec k' k); [contradiction|]. reflexivity. }
      assert (MV : forall h R, holds h (n_blocks ((a, k', l) :: L) ++ R) -> exists R', holds h (n_blocks L ++ R')).
      { intros h R H. exists (e_blocks (a, k', l) ++ R). eapply holds_perm; [exact H|]. rewrite n_blocks_cons. perm. }
      destruct (IH N') as [[NI' F]|(L1 & a' & l' & L2 & -> & N1 & N2 & F)].
      * left. split. { intros [E|I]; auto. } intros h R H. etransitivity; [exact (ST _ _ H)|]. destruct (MV _ _ H) as [R' H']. eauto.
      * right. exists ((a, k', l) :: L1), a', l', L2. split; [reflexivity|]. split. { intros [E|I]; auto. } split; auto.
        intros h R H. etransitivity; [exact (ST _ _ H)|]. destruct (MV _ _ H) as [R' H']. eauto.
Qed.
Lemma hash_find_split L1 a k l L2 : ~ In k (map ekey L2) -> hash_find (abs (L1 ++ @cons entry (a, k, l) L2)) k = Some (map snd l).
Proof.
  intros N2. rewrite abs_app, abs_cons, hash_find_app, hash_find_app, (hash_find_out L2) by auto.
  cbn [hash_find abs1 ekey eels fst snd]. now rewrite Z.eqb_refl.
Qed.
Lemma hash_upd_split L1 a k l L2 l' : ~ In k (map ekey L1) -> ~ In k (map ekey L2) ->
  hash_upd (abs (L1 ++ @cons entry (a, k, l) L2)) k (map snd l') = abs (L1 ++ @cons entry (a, k, l') L2).
Proof.
  intros N1 N2. rewrite !abs_app, !abs_cons, !hash_upd_app, (hash_upd_out L1), (hash_upd_out L2) by auto.
  cbn [hash_upd abs1 ekey eels fst snd]. now rewrite Z.eqb_refl.
Qed.
Lemma hash_del_split L1 a k l L2 : ~ In k (map ekey L1) -> ~ In k (map ekey L2) ->
  hash_del (abs (L1 ++ @cons entry (a, k, l) L2)) k = abs (L1 ++ L2).
Proof.
  intros N1 N2. rewrite !abs_app, !abs_cons, !hash_del_app, (hash_del_out L1), (hash_del_out L2) by auto.
  cbn [hash_del abs1 ekey eels fst snd]. now rewrite Z.eqb_refl, app_nil_r.
Qed.

(** The element with an index. *)
Lemma split_idx l idx : (~ In idx (map snd l) /\ dl_mem idx (map snd l) = false /\ find (fun y : Z * Z => snd y =? idx) l = None) \/
  (exists l1 x l2, l = l1 ++ (x, idx) :: l2 /\ dl_mem idx (map snd l) = true /\ find (fun y : Z * Z => snd y =? idx) l = Some (x, idx) /\
     dl_remove idx (map snd l) = map snd (l1 ++ l2)).
Proof.
  induction l as [|[x i] l IH].
  - left. split; [intros []|]. split; reflexivity.
  - cbn [map dl_mem existsb find snd dl_remove]. rewrite (Z.eqb_sym idx i). destruct (Z.eqb_spec i idx) as [->|NE].
    + right. exists [], x, l. cbn [orb]. repeat split; auto.
    + cbn [orb]. destruct IH as [(NI & D & F)|(l1 & y & l2 & -> & D & F & M)].
      * left. split; [intros [?|?]; auto|]. split; auto.
      * right. exists ((x, i) :: l1), y, l2. repeat split; auto. cbn [app map snd]. now rewrite M.
Qed.

(** * The invariant of a table *)
Record tab_ok (N : nat) (node : list Z) (items : list Z) (L : list entry) : Prop := mkTabOk {
  to_len : length node = N;
  to_items : items = map eaddr L;
  to_keys : NoDup (map ekey L);
  to_ne : forall x, In x L -> eels x <> [];
  to_nodup : forall x, In x L -> NoDup (map snd (eels x));
  to_idx : forall x i, In x L -> In i (map snd (eels x)) -> 0 <= i < Z.of_nat N /\ nth (Z.to_nat i) node 0 = ekey x }.

Lemma tab_ok_empty N : tab_ok N (List.repeat 0 N) [] [].
Proof. constructor; cbn [map]; try easy. - apply repeat_length. - constructor. Qed.

Definition indices (L : list entry) : list Z := flat_map (fun x => map snd (eels x)) L.
Lemma indices_nodup N node items L : tab_ok N node items L -> NoDup (indices L).
Proof.
  intros [_ _ K _ D X]. revert K D X. induction L as [|x L IH]; intros K D X. { constructor. }
  cbn [indices flat_map]. cbn [map] in K. inversion K as [|? ? NI K']; subst.
  assert (IHL : NoDup (indices L)). { apply IH; auto. - intros y I. apply D. now right. - intros y i I. apply X. now right. }
  assert (DX : NoDup (map snd (eels x))) by (apply D; now left).
  assert (DIS : forall i, In i (map snd (eels x)) -> ~ In i (indices L)).
  { intros i I J. unfold indices in J. apply in_flat_map in J. destruct J as (y & Iy & J).
    destruct (X x i (or_introl eq_refl) I) as [_ E1]. destruct (X y i (or_intror Iy) J) as [_ E2].
    apply NI. rewrite <- E1, E2. now apply in_map. }
  clear - IHL DX DIS. fold (indices L). induction (map snd (eels x)) as [|i l IHl]; cbn [app]; auto.
  inversion DX; subst. constructor.
  - intros I. apply in_app_or in I. destruct I as [I|I]; [contradiction|]. apply (DIS i); auto. now left.
  - apply IHl; auto. intros j Ij. apply DIS. now right.
Qed.
Lemma indices_bound N node items L : tab_ok N node items L -> (length (indices L) <= N)%nat.
Proof.
  intros T. pose proof (indices_nodup _ _ _ _ T) as D.
  assert (INC : incl (indices L) (map Z.of_nat (seq 0 N))).
  { intros i I. unfold indices in I. apply in_flat_map in I. destruct I as (x & Ix & I).
    destruct (to_idx _ _ _ _ T x i Ix I) as [B _]. apply in_map_iff. exists (Z.to_nat i). split; [lia|]. apply in_seq. lia. }
  pose proof (NoDup_incl_length D INC) as Q. now rewrite map_length, seq_length in Q.
Qed.
Lemma n_blocks_length L : length (n_blocks L) = (length L + length (indices L))%nat.
Proof.
  induction L as [|x L IH]; auto. rewrite n_blocks_cons. cbn [indices flat_map length]. fold (indices L).
  rewrite !app_length, IH. unfold e_blocks. cbn [length]. rewrite els_length, map_length. lia.
Qed.
Lemma entries_bound L : (forall x, In x L -> eels x <> []) -> (length L <= length (indices L))%nat.
Proof.
  induction L as [|x L IH]; intros NE; cbn [length indices flat_map]; [lia|]. fold (indices L). rewrite app_length, map_length.
  assert (eels x <> []) by (apply NE; now left). destruct (eels x); [contradiction|]. cbn [length].
  assert (length L <= length (indices L))%nat by (apply IH; intros y I; apply NE; now right). lia.
Qed.
(** The number of blocks of a table. *)
Lemma tab_blocks_bound N node items L b : tab_ok N node items L -> lenZ (tab_blocks L b) <= 1 + 2 * Z.of_nat N.
Proof.
  intros T. pose proof (indices_bound _ _ _ _ T). pose proof (entries_bound L (to_ne _ _ _ _ T)).
  unfold tab_blocks, lenZ. rewrite app_length, n_blocks_length. destruct L; cbn [length] in *; lia.
Qed.

(** * find_index *)
Lemma hfind_index_ok N h node items b L R v : tab_ok N node items L -> holds h (tab_blocks L b ++ R) ->
  hfind_index h (mkHtab node items b) v = Done (find_index (mkDict node (abs L)) v).
Proof.
  intros T H. unfold hfind_index, find_index. cbn [t_items d_ht]. rewrite (to_items _ _ _ _ T).
  assert (H' : exists R', holds h (n_blocks L ++ R')).
  { exists (match L with [] => [] | _ => [(b, BTable)] end ++ R). eapply holds_perm; [exact H|]. unfold tab_blocks. perm. }
  destruct H' as [R' H'].
  destruct (split_key L v (to_keys _ _ _ _ T)) as [[NI F]|(L1 & a & l & L2 & E & N1 & N2 & F)].
  - rewrite (F _ _ H'), bind_done, (hash_find_out L v NI). reflexivity.
  - rewrite (F _ _ H'), bind_done. rewrite E, (hash_find_split _ _ _ _ _ N2).
    rewrite E, n_blocks_app, n_blocks_cons in H'. unfold e_blocks in H'. cbn [eaddr ekey eels fst snd] in H'.
    assert (H0 : holds h ((a, BNode v (first_of l 0)) :: els l ++ n_blocks L1 ++ n_blocks L2 ++ R')) by (eapply holds_perm; [exact H'|perm]).
    pose proof (holds_nz _ _ _ _ H0). destruct (Z.eqb_spec a 0); [contradiction|].
    rewrite (holds_get_node _ _ _ _ _ H0), bind_done.
    destruct l as [|[x i] l]. { exfalso. eapply (to_ne _ _ _ _ T (a, v, [])); [rewrite E; apply in_or_app; right; now left|reflexivity]. }
    cbn [first_of map snd]. unfold els in H0. cbn [els_from last_of] in H0.
    assert (HX1 : holds h ((x, BEl i (first_of l 0) (last_of l x)) :: (a, BNode v x) :: els_from x l 0 ++ n_blocks L1 ++ n_blocks L2 ++ R')) by (eapply holds_perm; [exact H0|cbn [first_of]; perm]).
    pose proof (holds_nz _ _ _ _ HX1). destruct (Z.eqb_spec x 0); [contradiction|].
    now rewrite (holds_get_el _ _ _ _ _ _ HX1), bind_done.
Qed.

(** * replace_hash *)
Definition ht1_of (t : dict) (idx : Z) : htable :=
  match hash_find (d_ht t) (nth (Z.to_nat idx) (d_node t) 0) with
  | None => d_ht t
  | Some l =>
    if dl_mem idx l then
      let l' := dl_remove idx l in
      if lenZ l' =? 0 then hash_del (d_ht t) (nth (Z.to_nat idx) (d_node t) 0) else hash_upd (d_ht t) (nth (Z.to_nat idx) (d_node t) 0) l'
    else d_ht t
  end.
Lemma filter_items (L1 L2 : list entry) x : ~ In (eaddr x) (map eaddr L1) -> ~ In (eaddr x) (map eaddr L2) ->
  filter (fun b => negb (b =? eaddr x)) (map eaddr (L1 ++ x :: L2)) = map eaddr (L1 ++ L2).
Proof.
  intros N1 N2. assert (OUT : forall L : list entry, ~ In (eaddr x) (map eaddr L) -> filter (fun b => negb (b =? eaddr x)) (map eaddr L) = map eaddr L).
  { induction L as [|y L IH]; intros N; auto. cbn [map filter] in *. destruct (Z.eqb_spec (eaddr y) (eaddr x)); [exfalso; apply N; now left|].
    cbn [negb]. rewrite IH; auto. intros I. apply N. now right. }
  rewrite !map_app. cbn [map]. rewrite filter_app. cbn [filter]. rewrite Z.eqb_refl. cbn [negb]. now rewrite !OUT.
Qed.
Lemma in_n_blocks (L : list entry) a : In a (map eaddr L) -> In a (map fst (n_blocks L)).
Proof.
  intros I. apply in_map_iff in I. destruct I as (x & <- & I). apply in_map_iff. exists (eaddr x, BNode (ekey x) (first_of (eels x) 0)). split; auto.
  apply in_flat_map. exists x. split; auto. now left.
Qed.
(** The addresses of the nodes differ. *)
Lemma addr_out h x o L R : holds h ((eaddr x, o) :: n_blocks L ++ R) -> ~ In (eaddr x) (map eaddr L).
Proof.
  intros (N & _) I. cbn [map fst] in N. inversion N as [|? ? NI _]; subst. apply NI. rewrite map_app. apply in_or_app. left. now apply in_n_blocks.
Qed.

Lemma uhash_del_ok h node L1 x L2 b o R :
  holds h (((b, BTable) :: (eaddr x, BNode (ekey x) o) :: n_blocks (L1 ++ L2)) ++ R) ->
  exists items b' h', uhash_del h (mkHtab node (map eaddr (L1 ++ x :: L2)) b) (eaddr x) = Done (mkHtab node items b', h') /\ items = map eaddr (L1 ++ L2) /\
    holds h' ((eaddr x, BNode (ekey x) o) :: tab_blocks (L1 ++ L2) b' ++ R).
Proof.
  intros H. unfold uhash_del. cbn [t_items t_node t_block].
  assert (H0 : holds h ((eaddr x, BNode (ekey x) o) :: n_blocks (L1 ++ L2) ++ (b, BTable) :: R)) by (eapply holds_perm; [exact H|perm]).
  rewrite (holds_get_node _ _ _ _ _ H0), bind_done.
  assert (NI := addr_out _ _ _ _ _ H0). rewrite map_app in NI.
  rewrite filter_items by (intros I; apply NI; apply in_or_app; auto).
  destruct (L1 ++ L2) as [|y M] eqn:EM; cbn [map].
  - cbn [n_blocks flat_map app] in H. destruct (holds_free _ _ _ _ H) as (h' & -> & H'). rewrite bind_done.
    do 3 eexists. split; [reflexivity|]. split; [reflexivity|]. exact H'.
  - do 3 eexists. split; [reflexivity|]. split; [reflexivity|]. eapply holds_perm; [exact H|]. unfold tab_blocks. perm.
Qed.

(** The first part: afterwards no element of the table has the index. *)
Lemma remove_old_ok N h node items b L R idx : tab_ok N node items L -> holds h (tab_blocks L b ++ R) -> 0 <= idx < Z.of_nat N ->
  exists items' b' h' L', remove_old h (mkHtab node items b) idx = Done (mkHtab node items' b', h') /\
    holds h' (tab_blocks L' b' ++ R) /\ tab_ok N node items' L' /\ ~ In idx (indices L') /\ abs L' = ht1_of (mkDict node (abs L)) idx.
Proof.
  intros T H B. unfold remove_old. cbn [t_node t_items]. rewrite (to_items _ _ _ _ T).
  rewrite aget_ok by (unfold lenZ; rewrite (to_len _ _ _ _ T); lia). rewrite bind_done.
  unfold ht1_of. cbn [d_ht d_node]. set (old := nth (Z.to_nat idx) node 0).
  assert (OUT : forall L', (forall x i, In x L' -> In i (map snd (eels x)) -> nth (Z.to_nat i) node 0 = ekey x) ->
     (forall x, In x L' -> ekey x = old -> ~ In idx (map snd (eels x))) -> ~ In idx (indices L')).
  { intros L' X Y I. unfold indices in I. apply in_flat_map in I. destruct I as (x & Ix & I). apply (Y x Ix); auto. symmetry. now apply X. }
  assert (H' : exists R', holds h (n_blocks L ++ R')).
  { exists (match L with [] => [] | _ => [(b, BTable)] end ++ R). eapply holds_perm; [exact H|]. unfold tab_blocks. perm. }
  destruct H' as [R' H'].
  destruct (split_key L old (to_keys _ _ _ _ T)) as [[NI F]|(L1 & a & l & L2 & E & N1 & N2 & F)].
  - rewrite (F _ _ H'), bind_done, (hash_find_out L old NI). cbn [Z.eqb].
    exists (map eaddr L), b, h, L. split; [reflexivity|]. split; [exact H|]. split; [rewrite <- (to_items _ _ _ _ T); exact T|]. split; [|reflexivity].
    apply OUT. { intros x i Ix I. now apply (to_idx _ _ _ _ T). } intros x Ix EK. exfalso. apply NI. rewrite <- EK. now apply in_map.
  - rewrite (F _ _ H'), bind_done. clear H' F R'.
    assert (H0 : holds h (((b, BTable) :: (a, BNode old (first_of l 0)) :: els l ++ n_blocks L1 ++ n_blocks L2) ++ R)).
    { eapply holds_perm; [exact H|]. rewrite E, tab_blocks_mid. unfold e_blocks. cbn [eaddr ekey eels fst snd]. perm. }
    assert (HA : holds h ((a, BNode old (first_of l 0)) :: els l ++ (b, BTable) :: n_blocks L1 ++ n_blocks L2 ++ R)) by (eapply holds_perm; [exact H0|perm]).
    pose proof (holds_nz _ _ _ _ HA) as NZA. destruct (Z.eqb_spec a 0); [contradiction|].
    rewrite (holds_get_node _ _ _ _ _ HA), bind_done.
    set (Q := (b, BTable) :: n_blocks L1 ++ n_blocks L2 ++ R) in *.
    assert (HL : holds h (els l ++ (a, BNode old (first_of l 0)) :: Q)) by (eapply holds_perm; [exact HA|perm]).
    assert (LL : (length l < S (length h))%nat). { rewrite (holds_length _ _ HL), app_length, els_length. lia. }
    rewrite (dl_search_ok h idx l _ _ (last_of l 0) [] HL LL), bind_done.
    rewrite E, (hash_find_split L1 a old l L2 N2).
    assert (IN : In (a, old, l) L) by (rewrite E; apply in_or_app; right; now left).
    destruct (split_idx l idx) as [(ND & -> & ->)|(l1 & x & l2 & El & -> & -> & RM)].
    + cbn [Z.eqb]. exists (map eaddr L), b, h, L. rewrite <- E. split; [reflexivity|]. split; [exact H|]. split; [rewrite <- (to_items _ _ _ _ T); exact T|].
      split; [|reflexivity].
      apply OUT. { intros y i Iy I. now apply (to_idx _ _ _ _ T). }
      intros y Iy EK I. rewrite E in Iy. apply in_app_or in Iy. destruct Iy as [Iy|[Ey|Iy]].
      * apply N1. rewrite <- EK. now apply in_map.
      * subst y. now apply ND.
      * apply N2. rewrite <- EK. now apply in_map.
    + assert (NX : x <> 0). { assert (HX : exists S o, holds h ((x, o) :: S)). { rewrite El in HL. unfold els in HL. rewrite els_from_app in HL. cbn [els_from] in HL.
        do 2 eexists. eapply holds_perm; [exact HL|]. rewrite <- !app_assoc. cbn [app]. symmetry. apply Permutation_middle. }
        destruct HX as (S & o & HX). exact (holds_nz _ _ _ _ HX). }
      cbn [fst]. destruct (Z.eqb_spec x 0); [contradiction|].
      rewrite El in HL. destruct (dl_delete_ok _ _ _ _ _ _ HL) as (h1 & n' & p' & D1 & H1). rewrite El, D1, bind_done. clear D1.
      set (l' := l1 ++ l2) in *.
      assert (H1' : holds h1 ((a, BNode old (first_of l 0)) :: (x, BEl idx n' p') :: els l' ++ Q)). { eapply holds_perm; [exact H1|]. rewrite El. perm. }
      destruct (holds_set_head _ _ _ _ _ (first_of l' 0) H1') as (h2 & -> & H2). rewrite bind_done.
      assert (H2' : holds h2 ((x, BEl idx n' p') :: (a, BNode old (first_of l' 0)) :: els l' ++ Q)) by (eapply holds_perm; [exact H2|perm]).
      destruct (holds_free _ _ _ _ H2') as (h3 & -> & H3). rewrite bind_done.
      assert (H3' : holds h3 (els l' ++ (a, BNode old (first_of l' 0)) :: Q)) by (eapply holds_perm; [exact H3|perm]).
      assert (LL' : (length l' < S (length h3))%nat). { rewrite (holds_length _ _ H3'), app_length, els_length. lia. }
      rewrite (dl_count_ok h3 l' _ _ (last_of l' 0) [] H3' LL'), bind_done. rewrite <- El, RM.
      assert (LM : lenZ (map snd l') = lenZ l') by (unfold lenZ; now rewrite map_length). rewrite LM.
      assert (TI : to_items _ _ _ _ T = to_items _ _ _ _ T) by reflexivity. clear TI.
      assert (SUB : forall y, In y (L1 ++ L2) -> In y L). { intros y I. rewrite E. apply in_app_or in I. apply in_or_app. destruct I; [now left|right; now right]. }
      assert (NK : forall y, In y (L1 ++ L2) -> ekey y <> old). { intros y I EK. apply in_app_or in I. destruct I as [I|I]; [apply N1|apply N2]; rewrite <- EK; now apply in_map. }
      assert (K12 : NoDup (map ekey (L1 ++ L2))).
      { pose proof (to_keys _ _ _ _ T) as K. rewrite E, map_app in K. cbn [map] in K. apply NoDup_remove_1 in K. now rewrite map_app. }
      destruct (Z.eqb_spec (lenZ l') 0) as [Z0|NZ0].
      * assert (EN : l' = []) by (destruct l'; auto; unfold lenZ in Z0; cbn [length] in Z0; lia).
        rewrite EN in *. cbn [els els_from app first_of] in *.
        assert (H4 : holds h3 (((b, BTable) :: (eaddr (a, old, l), BNode (ekey (a, old, l)) 0) :: n_blocks (L1 ++ L2)) ++ R)).
        { eapply holds_perm; [exact H3'|]. unfold Q, els. cbn [els_from app eaddr ekey fst snd]. rewrite n_blocks_app. perm. }
        destruct (uhash_del_ok h3 node L1 ((a, old, l) : entry) L2 b 0 R H4) as (items' & b' & h4 & D4 & EI & H5).
        change (eaddr (a, old, l)) with a in D4, H5. rewrite D4, bind_done.
        destruct (holds_free _ _ _ _ H5) as (h5 & -> & H6). rewrite bind_done.
        exists items', b', h5, (L1 ++ L2). split; [reflexivity|]. split; [exact H6|]. split; [|split].
        -- constructor; auto.
           ++ exact (to_len _ _ _ _ T).
           ++ intros y I. apply (to_ne _ _ _ _ T). now apply SUB.
           ++ intros y I. apply (to_nodup _ _ _ _ T). now apply SUB.
           ++ intros y i I. apply (to_idx _ _ _ _ T). now apply SUB.
        -- apply OUT. { intros y i I J. apply (to_idx _ _ _ _ T); auto. } intros y I EK. exfalso. now apply (NK y I).
        -- symmetry. now apply hash_del_split.
      * exists (map eaddr L), b, h3, (L1 ++ @cons entry (a, old, l') L2). rewrite <- E. split; [reflexivity|].
        assert (DM := to_nodup _ _ _ _ T _ IN). cbn [eels snd] in DM. rewrite El, map_app in DM. cbn [map snd] in DM. apply NoDup_remove in DM. destruct DM as [DM NI].
        rewrite <- map_app in DM, NI. fold l' in DM, NI.
        assert (INL : forall i, In i (map snd l') -> In i (map snd l)).
        { intros i I. unfold l' in I. rewrite map_app in I. rewrite El, map_app. apply in_app_or in I. apply in_or_app. destruct I; [now left|right; now right]. }
        assert (CASE : forall y, In y (L1 ++ @cons entry (a, old, l') L2) -> y = (a, old, l') \/ In y (L1 ++ L2)).
        { intros y I. apply in_app_or in I. destruct I as [I|[<-|I]]; [right|now left|right]; apply in_or_app; auto. }
        split; [|split; [|split]].
        -- eapply holds_perm; [exact H3'|]. rewrite tab_blocks_mid. unfold Q, e_blocks. cbn [eaddr ekey eels fst snd]. perm.
        -- constructor.
           ++ exact (to_len _ _ _ _ T).
           ++ rewrite E, !map_app. reflexivity.
           ++ pose proof (to_keys _ _ _ _ T) as K. rewrite E, map_app in K. rewrite map_app. exact K.
           ++ intros y I. destruct (CASE y I) as [->|I']; [|apply (to_ne _ _ _ _ T); auto]. cbn [eels snd]. intros E0. apply NZ0. now rewrite E0.
           ++ intros y I. destruct (CASE y I) as [->|I']; [|apply (to_nodup _ _ _ _ T); auto]. exact DM.
           ++ intros y i I J. destruct (CASE y I) as [->|I']; [|apply (to_idx _ _ _ _ T); auto]. cbn [eels snd] in J. apply (to_idx _ _ _ _ T (a, old, l)); auto.
        -- apply OUT.
           ++ intros y i I J. destruct (CASE y I) as [->|I']; [|apply (to_idx _ _ _ _ T); auto]. cbn [eels snd] in J. apply (to_idx _ _ _ _ T (a, old, l)); auto.
           ++ intros y I EK. destruct (CASE y I) as [->|I']; [|exfalso; now apply (NK y I')]. exact NI.
        -- symmetry. rewrite E. now apply hash_upd_split.
Qed.

Lemma free_index N node items L idx : tab_ok N node items L -> 0 <= idx < Z.of_nat N -> ~ In idx (indices L) -> (length (indices L) < N)%nat.
Proof.
  intros T B NI. pose proof (indices_nodup _ _ _ _ T) as D.
  assert (INC : incl (idx :: indices L) (map Z.of_nat (seq 0 N))).
  { intros i [<-|I]. { apply in_map_iff. exists (Z.to_nat idx). split; [lia|]. apply in_seq. lia. }
    unfold indices in I. apply in_flat_map in I. destruct I as (x & Ix & I).
    destruct (to_idx _ _ _ _ T x i Ix I) as [Bi _]. apply in_map_iff. exists (Z.to_nat i). split; [lia|]. apply in_seq. lia. }
  pose proof (NoDup_incl_length (NoDup_cons _ NI D) INC) as Q. rewrite map_length, seq_length in Q. cbn [length] in Q. lia.
Qed.
Definition ht3_of (ht1 : htable) (idx v : Z) : htable :=
  let ht2 := match hash_find ht1 v with None => (v, []) :: ht1 | Some _ => ht1 end in
  match hash_find ht2 v with None => ht2 | Some l => hash_upd ht2 v (l ++ [idx]) end.
Lemma snoc_nodup {A} (l : list A) x : NoDup l -> ~ In x l -> NoDup (l ++ [x]).
Proof.
  intros D NI. induction l as [|y l IH]; cbn [app]. { constructor; auto. }
  inversion D; subst. constructor.
  - intros I. apply in_app_or in I. destruct I as [I|I]; [contradiction|destruct I as [I|I]; [subst|destruct I]]. apply NI. now left.
  - apply IH; auto. intros I. apply NI. now right.
Qed.

(** The second part. *)
Lemma add_new_ok alloc junk M cast N h node items b L R idx v : good_alloc alloc M -> lenZ R + 1 + 2 * Z.of_nat N <= M ->
  tab_ok N node items L -> holds h (tab_blocks L b ++ R) -> 0 <= idx < Z.of_nat N -> ~ In idx (indices L) -> cast idx = idx ->
  exists items' b' h' L', let node' := firstn (Z.to_nat idx) node ++ v :: skipn (S (Z.to_nat idx)) node in
    add_new alloc junk cast h (mkHtab node items b) idx v = Done (mkHtab node' items' b', h') /\
    holds h' (tab_blocks L' b' ++ R) /\ tab_ok N node' items' L' /\ abs L' = ht3_of (abs L) idx v.
Proof.
  intros G MB T H B NI C. unfold add_new. cbn [t_node t_items t_block].
  assert (LN := to_len _ _ _ _ T).
  rewrite aset_ok by (unfold lenZ; lia). rewrite bind_done.
  set (node' := firstn (Z.to_nat idx) node ++ v :: skipn (S (Z.to_nat idx)) node).
  assert (LN' : length node' = N) by (unfold node'; rewrite upd_length; lia).
  assert (OLD : forall x i, In x L -> In i (map snd (eels x)) -> 0 <= i < Z.of_nat N /\ nth (Z.to_nat i) node' 0 = ekey x).
  { intros x i Ix I. destruct (to_idx _ _ _ _ T x i Ix I) as [Bi E]. split; auto.
    unfold node'. rewrite nth_upd_other; auto. { lia. }
    intros EI. apply NI. replace idx with i by lia. apply in_flat_map. eauto. }
  assert (NEW : nth (Z.to_nat idx) node' 0 = v) by (unfold node'; apply nth_upd_same; lia).
  pose proof (free_index _ _ _ _ _ T B NI) as FI. pose proof (entries_bound L (to_ne _ _ _ _ T)) as EB.
  assert (H' : exists R', holds h (n_blocks L ++ R')).
  { exists (match L with [] => [] | _ => [(b, BTable)] end ++ R). eapply holds_perm; [exact H|]. unfold tab_blocks. perm. }
  destruct H' as [R' H']. rewrite (to_items _ _ _ _ T).
  (* the end, once the node is there *)
  assert (FIN : forall h1 b1 L1 a l L2, holds h1 (tab_blocks (L1 ++ @cons entry (a, v, l) L2) b1 ++ R) ->
     lenZ (tab_blocks (L1 ++ @cons entry (a, v, l) L2) b1) < 1 + 2 * Z.of_nat N ->
     exists h', (let '(el, h) := hmalloc alloc h1 (BEl junk junk junk) in
        '(_, n, p) <- get_el h el ;;
        h <- hset h el (BEl (cast idx) n p) ;;
        '(_, x) <- get_node h a ;;
        '(x, h) <- dl_append h x el ;;
        h <- set_head h a x ;;
        Done (mkHtab node' (map eaddr (L1 ++ @cons entry (a, v, l) L2)) b1, h))
      = Done (mkHtab node' (map eaddr (L1 ++ @cons entry (a, v, l) L2)) b1, h') /\
      exists el, holds h' (tab_blocks (L1 ++ @cons entry (a, v, l ++ [(el, idx)]) L2) b1 ++ R)).
  { intros h1 b1 L1 a l L2 H1 LB.
    destruct (holds_malloc alloc M h1 _ (BEl junk junk junk) G H1) as (el & h2 & -> & NZ & H2).
    { unfold lenZ in *. rewrite app_length. lia. }
    rewrite (holds_get_el _ _ _ _ _ _ H2), bind_done.
    destruct (holds_set _ _ _ _ (BEl (cast idx) junk junk) H2) as (h3 & -> & H3). rewrite bind_done. rewrite C in H3.
    rewrite tab_blocks_mid in H3. unfold e_blocks in H3. cbn [eaddr ekey eels fst snd] in H3.
    set (Q := (b1, BTable) :: n_blocks L1 ++ n_blocks L2 ++ R).
    assert (H3' : holds h3 ((a, BNode v (first_of l 0)) :: (el, BEl idx junk junk) :: els l ++ Q)) by (eapply holds_perm; [exact H3|unfold Q; perm]).
    rewrite (holds_get_node _ _ _ _ _ H3'), bind_done.
    assert (H3'' : holds h3 ((el, BEl idx junk junk) :: els l ++ (a, BNode v (first_of l 0)) :: Q)) by (eapply holds_perm; [exact H3'|perm]).
    destruct (dl_append_ok _ _ _ _ _ _ _ H3'') as (h4 & -> & H4). rewrite bind_done.
    set (l' := l ++ [(el, idx)]) in *.
    assert (H4' : holds h4 ((a, BNode v (first_of l 0)) :: els l' ++ Q)) by (eapply holds_perm; [exact H4|perm]).
    destruct (holds_set_head _ _ _ _ _ (first_of l' 0) H4') as (h5 & -> & H5). rewrite bind_done.
    exists h5. split; [reflexivity|]. exists el. eapply holds_perm; [exact H5|]. rewrite tab_blocks_mid. unfold e_blocks, Q. cbn [eaddr ekey eels fst snd]. fold l'. perm. }
  unfold ht3_of.
  destruct (split_key L v (to_keys _ _ _ _ T)) as [[NK F]|(L1 & a & l & L2 & E & N1 & N2 & F)].
  - (* a new node *)
    rewrite (F _ _ H'), bind_done, (hash_find_out L v NK). cbn [Z.eqb hash_find]. rewrite Z.eqb_refl. cbn [app].
    assert (LT : (length (tab_blocks L b) <= 1 + length L + length (indices L))%nat).
    { unfold tab_blocks. rewrite app_length, n_blocks_length. destruct L; cbn [length]; lia. }
    destruct (holds_malloc alloc M h _ (BNode junk junk) G H) as (a & h1 & -> & NZ & H1).
    { unfold lenZ in *. rewrite app_length. lia. }
    rewrite (holds_get_node _ _ _ _ _ H1), bind_done.
    destruct (holds_set _ _ _ _ (BNode v junk) H1) as (h2 & -> & H2). rewrite bind_done.
    destruct (holds_set_head _ _ _ _ _ 0 H2) as (h3 & -> & H3). rewrite bind_done.
    assert (ADD : exists b1 h4, uhash_add alloc h3 (mkHtab node' (map eaddr L) b) a = Done (mkHtab node' (map eaddr (L ++ @cons entry (a, v, []) [])) b1, h4) /\
       holds h4 (tab_blocks (L ++ @cons entry (a, v, []) []) b1 ++ R)).
    { unfold uhash_add. cbn [t_items t_node t_block]. destruct L as [|y L0] eqn:EL; cbn [map].
      - cbn [tab_blocks n_blocks flat_map app] in H3.
        destruct (holds_malloc alloc M h3 _ BTable G H3) as (b1 & h4 & -> & NZ1 & H4). { unfold lenZ in *. cbn [length]. lia. }
        destruct (Z.eqb_spec b1 0); [contradiction|]. do 2 eexists. split; [reflexivity|]. eapply holds_perm; [exact H4|].
        rewrite tab_blocks_mid. unfold e_blocks. cbn [n_blocks flat_map eaddr ekey eels fst snd els els_from first_of]. unfold els. cbn [els_from]. perm.
      - do 2 eexists. split. { rewrite map_app. reflexivity. } eapply holds_perm; [exact H3|]. rewrite tab_blocks_mid. unfold tab_blocks.
        unfold e_blocks. cbn [n_blocks flat_map eaddr ekey eels fst snd els first_of]. unfold els. cbn [els_from]. perm. }
    destruct ADD as (b1 & h4 & -> & H4). rewrite !bind_done.
    destruct (FIN h4 b1 L a [] [] H4) as (h5 & -> & el & H5).
    { rewrite tab_blocks_mid. unfold lenZ. rewrite !app_length || idtac. cbn [length]. rewrite !app_length, n_blocks_length. cbn [e_blocks length eels snd n_blocks flat_map els els_from]. lia. }
    do 3 eexists. exists (L ++ @cons entry (a, v, [(el, idx)]) []). split; [reflexivity|]. split; [exact H5|]. split.
    + assert (CASE : forall y, In y (L ++ @cons entry (a, v, [(el, idx)]) []) -> In y L \/ y = (a, v, [(el, idx)])).
      { intros y I. apply in_app_or in I. destruct I as [I|[<-|[]]]; auto. }
      constructor; auto.
      * rewrite !map_app. reflexivity.
      * rewrite map_app. cbn [map ekey fst snd]. apply snoc_nodup; auto. exact (to_keys _ _ _ _ T).
      * intros y I. destruct (CASE y I) as [I'| ->]; [now apply (to_ne _ _ _ _ T)|]. discriminate.
      * intros y I. destruct (CASE y I) as [I'| ->]; [now apply (to_nodup _ _ _ _ T)|]. repeat constructor. intros [].
      * intros y i I J. destruct (CASE y I) as [I'| ->]; [now apply OLD|]. cbn [eels snd map In] in J. destruct J as [<-|[]]. auto.
    + rewrite abs_app. cbn [hash_upd]. rewrite Z.eqb_refl, (hash_upd_out L v _ NK). reflexivity.
  - (* an old one *)
    assert (HF : hash_find (abs L) v = Some (map snd l)) by (rewrite E; now apply hash_find_split).
    rewrite (F _ _ H'), bind_done, HF. cbv zeta. rewrite HF.
    assert (IN : In ((a, v, l) : entry) L) by (rewrite E; apply in_or_app; right; now left).
    assert (NZA : a <> 0).
    { assert (HA : exists S o, holds h ((a, o) :: S)). { rewrite E, tab_blocks_mid in H. unfold e_blocks in H. cbn [eaddr ekey eels fst snd] in H.
        exists ((b, BTable) :: n_blocks L1 ++ els l ++ n_blocks L2 ++ R). eexists. eapply holds_perm; [exact H|]. perm. }
      destruct HA as (S & o & HA). exact (holds_nz _ _ _ _ HA). }
    destruct (Z.eqb_spec a 0); [contradiction|]. rewrite !bind_done. rewrite E in H |- *.
    destruct (FIN h b L1 a l L2 H) as (h5 & -> & el & H5).
    { rewrite <- E. unfold lenZ, tab_blocks. rewrite app_length, n_blocks_length. destruct L; cbn [length] in *; lia. }
    do 3 eexists. exists (L1 ++ @cons entry (a, v, l ++ [(el, idx)]) L2). split; [reflexivity|]. split; [exact H5|]. split.
    + assert (CASE : forall y, In y (L1 ++ @cons entry (a, v, l ++ [(el, idx)]) L2) -> In y L \/ y = (a, v, l ++ [(el, idx)])).
      { intros y I. rewrite E. apply in_app_or in I. destruct I as [I|[<-|I]]; auto; left; apply in_or_app; [now left|right; now right]. }
      assert (NIl : ~ In idx (map snd l)). { intros I. apply NI. apply in_flat_map. exists (a, v, l). auto. }
      constructor; auto.
      * rewrite !map_app. reflexivity.
      * pose proof (to_keys _ _ _ _ T) as K. rewrite E, map_app in K. rewrite map_app. exact K.
      * intros y I. destruct (CASE y I) as [I'| ->]; [now apply (to_ne _ _ _ _ T)|]. cbn [eels snd]. intros E0. now apply app_eq_nil in E0.
      * intros y I. destruct (CASE y I) as [I'| ->]; [now apply (to_nodup _ _ _ _ T)|]. cbn [eels snd]. rewrite map_app. cbn [map snd].
        apply snoc_nodup; auto. exact (to_nodup _ _ _ _ T _ IN).
      * intros y i I J. destruct (CASE y I) as [I'| ->]; [now apply OLD|]. cbn [eels snd] in J. rewrite map_app in J. apply in_app_or in J.
        destruct J as [J|[<-|[]]]; [exact (OLD _ _ IN J)|auto].
    + symmetry. replace (map snd l ++ [idx]) with (map snd (l ++ [(el, idx)])) by (rewrite map_app; reflexivity). now apply hash_upd_split.
Qed.

(** replace_hash. *)
Lemma hreplace_ok alloc junk M cast N h node items b L R idx v t' : good_alloc alloc M -> lenZ R + 1 + 2 * Z.of_nat N <= M ->
  tab_ok N node items L -> holds h (tab_blocks L b ++ R) -> 0 <= idx < Z.of_nat N -> cast idx = idx ->
  replace_hash (mkDict node (abs L)) idx v = Done t' ->
  exists items' b' h' L', hreplace_hash alloc junk cast h (mkHtab node items b) idx v = Done (mkHtab (d_node t') items' b', h') /\
    holds h' (tab_blocks L' b' ++ R) /\ tab_ok N (d_node t') items' L' /\ d_ht t' = abs L'.
Proof.
  intros G MB T H B C RH. unfold hreplace_hash.
  destruct (remove_old_ok N h node items b L R idx T H B) as (items1 & b1 & h1 & L1 & -> & H1 & T1 & NI & A1). rewrite bind_done.
  destruct (add_new_ok alloc junk M cast N h1 node items1 b1 L1 R idx v G MB T1 H1 B NI C) as (items2 & b2 & h2 & L2 & -> & H2 & T2 & A2).
  unfold replace_hash in RH. cbn [d_node d_ht] in RH. rewrite aget_ok in RH by (unfold lenZ; rewrite (to_len _ _ _ _ T); lia). rewrite bind_done in RH.
  rewrite aset_ok in RH by (unfold lenZ; rewrite (to_len _ _ _ _ T); lia). rewrite bind_done in RH. injection RH as <-. cbn [d_node d_ht].
  do 4 eexists. split; [reflexivity|]. split; [exact H2|]. split; [exact T2|]. rewrite A2, A1. reflexivity.
Qed.

(** * destroy_hashtable *)
Lemma destroy_els_ok a k l R : forall f h, holds h ((a, BNode k (first_of l 0)) :: els l ++ R) -> (length l < f)%nat ->
  exists h', destroy_els f h a (first_of l 0) = Done h' /\ holds h' ((a, BNode k 0) :: R).
Proof.
  induction l as [|[x i] l IH]; intros f h H L; destruct f as [|f]; try (cbn [length] in L; lia).
  - exists h. split; [reflexivity|]. exact H.
  - cbn [destroy_els first_of] in *.
    assert (HX : holds h ((x, BEl i (first_of l 0) (last_of l x)) :: els_from x l 0 ++ (a, BNode k x) :: R)) by (eapply holds_perm; [exact H|unfold els; cbn [els_from last_of]; perm]).
    pose proof (holds_nz _ _ _ _ HX) as NZ. destruct (Z.eqb_spec x 0); [contradiction|].
    rewrite (holds_get_el _ _ _ _ _ _ HX), bind_done, (holds_get_node _ _ _ _ _ H), bind_done.
    assert (HL : holds h (els ([] ++ (x, i) :: l) ++ (a, BNode k x) :: R)) by (eapply holds_perm; [exact H|cbn [app]; perm]).
    destruct (dl_delete_ok _ _ _ _ _ _ HL) as (h1 & n' & p' & D & H1). cbn [app first_of] in D. rewrite D, bind_done. cbn [app] in H1.
    assert (H1' : holds h1 ((a, BNode k x) :: (x, BEl i n' p') :: els l ++ R)) by (eapply holds_perm; [exact H1|perm]).
    destruct (holds_set_head _ _ _ _ _ (first_of l 0) H1') as (h2 & -> & H2). rewrite bind_done.
    assert (H2' : holds h2 ((x, BEl i n' p') :: (a, BNode k (first_of l 0)) :: els l ++ R)) by (eapply holds_perm; [exact H2|perm]).
    destruct (holds_free _ _ _ _ H2') as (h3 & -> & H3). rewrite bind_done. apply IH; auto. cbn [length] in L. lia.
Qed.
Lemma destroy_nodes_ok R : forall L h node b, holds h (tab_blocks L b ++ R) ->
  exists t' h', destroy_nodes h (mkHtab node (map eaddr L) b) (map eaddr L) = Done (t', h') /\ holds h' R.
Proof.
  induction L as [|x L IH]; intros h node b H.
  - do 2 eexists. split; [reflexivity|]. exact H.
  - pose proof (tab_blocks_mid [] x L b) as TM. cbn [app n_blocks flat_map] in TM. rewrite TM in H. clear TM.
    fold (n_blocks L) in H. unfold e_blocks in H.
    assert (H0 : holds h ((eaddr x, BNode (ekey x) (first_of (eels x) 0)) :: els (eels x) ++ (b, BTable) :: n_blocks L ++ R)) by (eapply holds_perm; [exact H|perm]).
    change (map eaddr (x :: L)) with (eaddr x :: map eaddr L) at 2. cbn [destroy_nodes].
    rewrite (holds_get_node _ _ _ _ _ H0), bind_done.
    destruct (destroy_els_ok _ _ _ _ (S (length h)) h H0) as (h1 & -> & H1).
    { rewrite (holds_length _ _ H0). cbn [length]. rewrite app_length, els_length. lia. }
    rewrite bind_done.
    destruct (uhash_del_ok h1 node [] x L b 0 R) as (items & b' & h2 & DEL & -> & H2). { eapply holds_perm; [exact H1|]. cbn [app]. perm. }
    cbn [app] in DEL, H2. change (@app entry nil L) with L in H2. rewrite DEL, bind_done.
    destruct (holds_free _ _ _ _ H2) as (h3 & -> & H3). rewrite bind_done. apply IH; auto.
Qed.
Lemma destroy_ok h node items b L R N : tab_ok N node items L -> holds h (tab_blocks L b ++ R) ->
  exists t' h', destroy_hashtable h (mkHtab node items b) = Done (t', h') /\ holds h' R.
Proof. intros T H. unfold destroy_hashtable. cbn [t_items]. rewrite (to_items _ _ _ _ T). now apply destroy_nodes_ok. Qed.
