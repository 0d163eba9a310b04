(** The heap of HeapModel.v as a collection of blocks, and the doubly linked lists in it. *)
From Coq Require Import ZArith List Bool Lia Permutation.
From Verif Require Import CBase BitsLemmas HeapModel.
Import ListNotations.
Open Scope Z_scope.

(** * Permutations *)
Lemma pull_cons_there {A} (x y : A) S R : Permutation (x :: S) R -> Permutation (x :: y :: S) (y :: R).
Proof. intros H. rewrite perm_swap. now constructor. Qed.
Lemma pull_cons_app {A} (x : A) Y S R : Permutation (x :: S) R -> Permutation (x :: Y ++ S) (Y ++ R).
Proof. intros H. rewrite Permutation_middle. now apply Permutation_app_head. Qed.
Lemma pull_app_there {A} X (y : A) S R : Permutation (X ++ S) R -> Permutation (X ++ y :: S) (y :: R).
Proof. intros H. rewrite <- Permutation_middle. now constructor. Qed.
Lemma pull_app_app {A} (X Y S R : list A) : Permutation (X ++ S) R -> Permutation (X ++ Y ++ S) (Y ++ R).
Proof. intros H. rewrite !app_assoc, (Permutation_app_comm X Y), <- app_assoc. now apply Permutation_app_head. Qed.
Lemma perm_cons_trans {A} (x : A) l m m' : Permutation (x :: m') m -> Permutation l m' -> Permutation (x :: l) m.
Proof. intros H E. rewrite <- H. now constructor. Qed.
Lemma perm_app_trans {A} (x : list A) l m m' : Permutation (x ++ m') m -> Permutation l m' -> Permutation (x ++ l) m.
Proof. intros H E. rewrite <- H. now apply Permutation_app_head. Qed.
Lemma perm_end_trans {A} (x : list A) m m' : Permutation (x ++ m') m -> Permutation [] m' -> Permutation x m.
Proof. intros H E. rewrite <- H, <- E, app_nil_r. reflexivity. Qed.
Ltac pull :=
  first [ apply Permutation_refl
        | apply pull_cons_there; pull | apply pull_cons_app; pull
        | apply pull_app_there; pull | apply pull_app_app; pull
        | match goal with |- Permutation (?x ++ _) ?x => rewrite app_nil_r; apply Permutation_refl end ].
Ltac perm_loop :=
  first [ apply Permutation_refl
        | match goal with
          | |- Permutation (_ :: _) _ => eapply perm_cons_trans; [pull|perm_loop]
          | |- Permutation (_ ++ _) _ => eapply perm_app_trans; [pull|perm_loop]
          end ].
Ltac perm := repeat first [rewrite <- app_assoc | rewrite app_nil_r | progress (cbn [app])]; perm_loop.

(** * The heap *)
(** The heap consists of the blocks [l]. *)
Definition holds (h l : heap) : Prop := NoDup (map fst l) /\ ~ In 0 (map fst l) /\ Permutation h l.

Lemma holds_perm h l l' : holds h l -> Permutation l l' -> holds h l'.
Proof.
  intros (N & Z & P) Q. assert (QM := Permutation_map fst Q). split; [|split].
  - eapply Permutation_NoDup; eauto.
  - intros I. apply Z. eapply Permutation_in; [symmetry; exact QM|exact I].
  - now rewrite P.
Qed.
Lemma holds_length h l : holds h l -> length h = length l.
Proof. intros (_ & _ & P). now apply Permutation_length. Qed.

Lemma find_in (h : heap) a o : NoDup (map fst h) -> In (a, o) h -> find (fun b => fst b =? a) h = Some (a, o).
Proof.
  induction h as [|[b x] h IH]; intros N I. { destruct I. }
  cbn [map fst] in N. inversion N as [|? ? NI N']; subst. cbn [find fst].
  destruct I as [E|I].
  - injection E as -> ->. now rewrite Z.eqb_refl.
  - destruct (Z.eqb_spec b a) as [->|]. { exfalso. apply NI. apply (in_map fst) in I. exact I. } auto.
Qed.
Lemma holds_get h a o l : holds h ((a, o) :: l) -> hget h a = Done o.
Proof.
  intros (N & NZ & P). unfold hget. destruct (Z.eqb_spec a 0) as [->|_]. { exfalso. apply NZ. now left. } rewrite (find_in h a o); auto.
  - eapply Permutation_NoDup; [symmetry; apply (Permutation_map fst P)|exact N].
  - eapply Permutation_in; [symmetry; exact P|]. now left.
Qed.
Lemma map_out (l : heap) a o : ~ In a (map fst l) -> map (fun b => if fst b =? a then (a, o) else b) l = l.
Proof.
  induction l as [|[b x] l IH]; intros N; auto. cbn [map fst] in *.
  destruct (Z.eqb_spec b a) as [->|]. { exfalso. apply N. now left. } rewrite IH; auto. intros I. apply N. now right.
Qed.
Lemma filter_out (l : heap) a : ~ In a (map fst l) -> filter (fun b => negb (fst b =? a)) l = l.
Proof.
  induction l as [|[b x] l IH]; intros N; auto. cbn [map filter fst] in *.
  destruct (Z.eqb_spec b a) as [->|]. { exfalso. apply N. now left. } cbn [negb]. rewrite IH; auto. intros I. apply N. now right.
Qed.
Lemma holds_set h a o l o' : holds h ((a, o) :: l) -> exists h', hset h a o' = Done h' /\ holds h' ((a, o') :: l).
Proof.
  intros H. unfold hset. rewrite (holds_get _ _ _ _ H), bind_done. eexists. split; [reflexivity|].
  destruct H as (N & Z & P). split; [exact N|]. split; [exact Z|].
  rewrite (Permutation_map _ P). cbn [map fst]. rewrite Z.eqb_refl, map_out; auto. now inversion N.
Qed.
Lemma filter_perm {A} (f : A -> bool) l l' : Permutation l l' -> Permutation (filter f l) (filter f l').
Proof.
  induction 1; cbn [filter]; auto.
  - destruct (f x); auto.
  - destruct (f x), (f y); auto. apply perm_swap.
  - etransitivity; eauto.
Qed.
Lemma holds_free h a o l : holds h ((a, o) :: l) -> exists h', hfree h a = Done h' /\ holds h' l.
Proof.
  intros H. unfold hfree. rewrite (holds_get _ _ _ _ H), bind_done. eexists. split; [reflexivity|].
  destruct H as (N & Z & P). cbn [map fst] in N, Z. inversion N as [|? ? NI N']; subst. split; [exact N'|]. split. { intros I. apply Z. now right. }
  rewrite (filter_perm _ _ _ P). cbn [filter fst]. rewrite Z.eqb_refl. cbn [negb]. rewrite filter_out; auto.
Qed.
(** What is required of malloc: that the block is new, and that it succeeds while there are less than [M] blocks. *)
Definition good_alloc (alloc : heap -> Z) (M : Z) : Prop :=
  forall h, (alloc h <> 0 -> ~ In (alloc h) (map fst h)) /\ (lenZ h < M -> alloc h <> 0).
Lemma holds_malloc alloc M h l o : good_alloc alloc M -> holds h l -> lenZ l < M ->
  exists a h', hmalloc alloc h o = (a, h') /\ a <> 0 /\ holds h' ((a, o) :: l).
Proof.
  intros G H L. destruct (G h) as [G1 G2].
  assert (A : alloc h <> 0). { apply G2. unfold lenZ in *. now rewrite (holds_length _ _ H). }
  unfold hmalloc. destruct (Z.eqb_spec (alloc h) 0); [contradiction|]. do 2 eexists. split; [reflexivity|]. split; [exact A|].
  destruct H as (N & Z & P). cbn [holds map fst]. split; [|split].
  - constructor; auto. intros I. apply (G1 A). eapply Permutation_in; [symmetry; apply (Permutation_map fst P)|exact I].
  - intros [E|I]; auto.
  - now constructor.
Qed.
Lemma holds_nz h a o l : holds h ((a, o) :: l) -> a <> 0.
Proof. intros (_ & Z & _) ->. apply Z. now left. Qed.
Lemma holds_ne h a o b o' l : holds h ((a, o) :: (b, o') :: l) -> a <> b.
Proof. intros (N & _ & _) ->. cbn in N. inversion N as [|? ? NI _]; subst. apply NI. now left. Qed.

(** * Members *)
Lemma holds_get_el h a i n p l : holds h ((a, BEl i n p) :: l) -> get_el h a = Done (i, n, p).
Proof. intros H. unfold get_el. now rewrite (holds_get _ _ _ _ H), bind_done. Qed.
Lemma holds_set_next h a i n p l n' : holds h ((a, BEl i n p) :: l) -> exists h', set_next h a n' = Done h' /\ holds h' ((a, BEl i n' p) :: l).
Proof. intros H. unfold set_next. rewrite (holds_get_el _ _ _ _ _ _ H), bind_done. eapply holds_set; eauto. Qed.
Lemma holds_set_prev h a i n p l p' : holds h ((a, BEl i n p) :: l) -> exists h', set_prev h a p' = Done h' /\ holds h' ((a, BEl i n p') :: l).
Proof. intros H. unfold set_prev. rewrite (holds_get_el _ _ _ _ _ _ H), bind_done. eapply holds_set; eauto. Qed.
Lemma holds_get_node h a d x l : holds h ((a, BNode d x) :: l) -> get_node h a = Done (d, x).
Proof. intros H. unfold get_node. now rewrite (holds_get _ _ _ _ H), bind_done. Qed.
Lemma holds_set_head h a d x l x' : holds h ((a, BNode d x) :: l) -> exists h', set_head h a x' = Done h' /\ holds h' ((a, BNode d x') :: l).
Proof. intros H. unfold set_head. rewrite (holds_get_node _ _ _ _ _ H), bind_done. eapply holds_set; eauto. Qed.

(** * Doubly linked lists *)
Definition first_of (l : list (Z * Z)) (n : Z) : Z := match l with [] => n | (x, _) :: _ => x end.
Fixpoint last_of (l : list (Z * Z)) (p : Z) : Z := match l with [] => p | (x, _) :: r => last_of r x end.
Fixpoint els_from (p : Z) (l : list (Z * Z)) (n : Z) : heap :=
  match l with
  | [] => []
  | (x, i) :: r => (x, BEl i (first_of r n) p) :: els_from x r n
  end.
(** The blocks of a list with the elements [l] (addresses and indices). *)
Definition els (l : list (Z * Z)) : heap := els_from (last_of l 0) l 0.

Lemma els_from_app l : forall p m n, els_from p (l ++ m) n = els_from p l (first_of m n) ++ els_from (last_of l p) m n.
Proof.
  induction l as [|[x i] l IH]; intros p m n; cbn [app els_from last_of]; auto. rewrite IH. f_equal.
  destruct l as [|[y j] l]; reflexivity.
Qed.
Lemma last_of_app l : forall m p, last_of (l ++ m) p = last_of m (last_of l p).
Proof. induction l as [|[x i] l IH]; intros; cbn [app last_of]; auto. Qed.
Lemma first_of_app l m n : first_of (l ++ m) n = first_of l (first_of m n).
Proof. destruct l as [|[x i] l]; reflexivity. Qed.
Lemma els_from_length l : forall p n, length (els_from p l n) = length l.
Proof. induction l as [|[x i] l IH]; intros; cbn [els_from length]; auto. Qed.
Lemma els_length l : length (els l) = length l.
Proof. apply els_from_length. Qed.
Lemma els_from_keys l : forall p n, map fst (els_from p l n) = map fst l.
Proof. induction l as [|[x i] l IH]; intros; cbn [els_from map fst]; auto. now rewrite IH. Qed.
Lemma els_keys l : map fst (els l) = map fst l.
Proof. apply els_from_keys. Qed.

Lemma last_snoc (l : list (Z * Z)) : l = [] \/ exists l' x, l = l' ++ [x].
Proof. 
  destruct l as [|y l]; [now left|]. right. destruct (@exists_last _ (y :: l)) as (l' & x & E); [discriminate|]. eauto.
Qed.


Lemma dl_append_ok h l a i n p R : holds h ((a, BEl i n p) :: els l ++ R) ->
  exists h', dl_append h (first_of l 0) a = Done (first_of (l ++ [(a, i)]) 0, h') /\ holds h' (els (l ++ [(a, i)]) ++ R).
Proof.
  intros H. unfold dl_append. destruct l as [|[x i1] l].
  - cbn [first_of negb Z.eqb]. cbn [els last_of els_from app] in H.
    destruct (holds_set_prev _ _ _ _ _ _ a H) as (h1 & -> & H1). rewrite bind_done.
    destruct (holds_set_next _ _ _ _ _ _ 0 H1) as (h2 & -> & H2). rewrite bind_done.
    exists h2. split; [reflexivity|]. exact H2.
  - cbn [first_of app]. destruct (last_snoc l) as [->|(r & [z k] & ->)].
    + cbn [els last_of els_from first_of app] in H |- *.
      assert (H0 : holds h ((x, BEl i1 0 x) :: (a, BEl i n p) :: R)) by (eapply holds_perm; [exact H|perm]).
      pose proof (holds_nz _ _ _ _ H0) as NZ. destruct (Z.eqb_spec x 0); [contradiction|]. cbn [negb].
      rewrite (holds_get_el _ _ _ _ _ _ H0), bind_done.
      destruct (holds_set_prev _ _ _ _ _ _ x H) as (h1 & -> & H1). rewrite bind_done.
      assert (H1' : holds h1 ((x, BEl i1 0 x) :: (a, BEl i n x) :: R)) by (eapply holds_perm; [exact H1|perm]).
      destruct (holds_set_next _ _ _ _ _ _ a H1') as (h2 & -> & H2). rewrite bind_done.
      destruct (holds_set_prev _ _ _ _ _ _ a H2) as (h3 & -> & H3). rewrite bind_done.
      assert (H3' : holds h3 ((a, BEl i n x) :: (x, BEl i1 a a) :: R)) by (eapply holds_perm; [exact H3|perm]).
      destruct (holds_set_next _ _ _ _ _ _ 0 H3') as (h4 & -> & H4). rewrite bind_done.
      exists h4. split; [reflexivity|]. eapply holds_perm; [exact H4|]. unfold els. cbn [last_of els_from first_of app]. perm.
    + unfold els in H |- *. cbn [last_of els_from app] in H |- *. rewrite <- app_assoc in *. cbn [app] in *.
      rewrite !last_of_app in *. cbn [last_of] in *. rewrite !els_from_app in *. cbn [els_from first_of] in *. rewrite !first_of_app in *. cbn [first_of] in *.
      set (A := els_from x r z) in *.
      assert (H0 : holds h ((x, BEl i1 (first_of r z) z) :: (z, BEl k 0 (last_of r x)) :: (a, BEl i n p) :: A ++ R)) by (eapply holds_perm; [exact H|perm]).
      pose proof (holds_nz _ _ _ _ H0) as NZ. destruct (Z.eqb_spec x 0); [contradiction|]. cbn [negb].
      rewrite (holds_get_el _ _ _ _ _ _ H0), bind_done.
      destruct (holds_set_prev _ _ _ _ _ _ z H) as (h1 & -> & H1). rewrite bind_done.
      assert (H1' : holds h1 ((z, BEl k 0 (last_of r x)) :: (x, BEl i1 (first_of r z) z) :: (a, BEl i n z) :: A ++ R)) by (eapply holds_perm; [exact H1|perm]).
      destruct (holds_set_next _ _ _ _ _ _ a H1') as (h2 & -> & H2). rewrite bind_done.
      assert (H2' : holds h2 ((x, BEl i1 (first_of r z) z) :: (z, BEl k a (last_of r x)) :: (a, BEl i n z) :: A ++ R)) by (eapply holds_perm; [exact H2|perm]).
      destruct (holds_set_prev _ _ _ _ _ _ a H2') as (h3 & -> & H3). rewrite bind_done.
      assert (H3' : holds h3 ((a, BEl i n z) :: (x, BEl i1 (first_of r z) a) :: (z, BEl k a (last_of r x)) :: A ++ R)) by (eapply holds_perm; [exact H3|perm]).
      destruct (holds_set_next _ _ _ _ _ _ 0 H3') as (h4 & -> & H4). rewrite bind_done.
      exists h4. split; [reflexivity|]. eapply holds_perm; [exact H4|]. perm.
Qed.

Lemma dl_delete_ok h l1 l2 x i R : holds h (els (l1 ++ (x, i) :: l2) ++ R) ->
  exists h' n p, dl_delete h (first_of (l1 ++ (x, i) :: l2) 0) x = Done (first_of (l1 ++ l2) 0, h') /\ holds h' ((x, BEl i n p) :: els (l1 ++ l2) ++ R).
Proof.
  intros H. unfold els in H. rewrite els_from_app, last_of_app in H. cbn [els_from first_of last_of] in H.
  set (n := first_of l2 0) in *.
  unfold dl_delete. destruct l1 as [|[y j] l1].
  - cbn [app first_of] in *. cbn [els_from last_of app] in H.
    rewrite (holds_get_el _ _ _ _ _ _ H), bind_done.
    destruct l2 as [|[y j] l2].
    + cbn [last_of]. rewrite Z.eqb_refl. exists h, 0, x. split; [reflexivity|]. exact H.
    + cbn [last_of els_from] in H |- *.
      assert (NE : last_of l2 y <> x).
      { destruct H as (N & _). cbn [map fst app] in N. inversion N as [|? ? NI _]; subst. intros E. apply NI.
        rewrite map_app, els_from_keys. clear - E. revert y E. induction l2 as [|[z k] l2 IH]; intros y E; cbn [last_of map app fst] in *.
        - left; auto.
        - right. destruct (IH z E) as [I|I]; [now left|]. now right. }
      destruct (Z.eqb_spec (last_of l2 y) x); [contradiction|]. rewrite Z.eqb_refl.
      assert (H0 : holds h ((y, BEl j (first_of l2 0) x) :: (x, BEl i y (last_of l2 y)) :: els_from y l2 0 ++ R)) by (eapply holds_perm; [exact H|perm]).
      change n with y. destruct (holds_set_prev _ _ _ _ _ _ (last_of l2 y) H0) as (h1 & -> & H1). rewrite bind_done.
      do 3 eexists. split; [reflexivity|]. eapply holds_perm; [exact H1|]. unfold els. cbn [last_of els_from]. perm.
  - cbn [app first_of]. destruct (@exists_last _ ((y, j) :: l1)) as (r & [z k] & E); [discriminate|].
    assert (LA : last_of ((y, j) :: l1) (last_of l2 x) = z) by (rewrite E, last_of_app; reflexivity).
    rewrite LA in H.
    assert (NY : x <> y).
    { destruct H as (N & _). intros ->. rewrite map_app in N. cbn [els_from map fst app] in N. inversion N as [|? ? NI _]; subst. apply NI.
      rewrite map_app. apply in_or_app. left. apply in_or_app. right. now left. }
    assert (NZ : z <> x).
    { destruct H as (N & _). intros ->. rewrite E, els_from_app in N. cbn [els_from first_of app] in N. rewrite !map_app in N. cbn [map fst] in N.
      rewrite <- !app_assoc in N. cbn [app] in N. apply NoDup_remove in N. destruct N as [_ N]. apply N. apply in_or_app. right. now left. }
    set (A := els_from (last_of l2 x) ((y, j) :: l1) x) in *.
    assert (H0 : holds h ((x, BEl i n z) :: A ++ els_from x l2 0 ++ R)) by (eapply holds_perm; [exact H|perm]).
    rewrite (holds_get_el _ _ _ _ _ _ H0), bind_done.
    destruct (Z.eqb_spec z x); [contradiction|]. destruct (Z.eqb_spec x y); [contradiction|].
    assert (EA : A = els_from (last_of l2 x) r z ++ [(z, BEl k x (last_of r (last_of l2 x)))]).
    { unfold A. rewrite E, els_from_app. reflexivity. }
    destruct l2 as [|[y2 j2] l2].
    + (* the last element *)
      cbn [last_of first_of els_from app] in *. change n with 0 in *. cbn [negb Z.eqb].
      destruct r as [|[y' j'] r].
      * cbn [app] in E. injection E as -> -> ->. cbn [els_from first_of app last_of] in EA. rewrite EA in H0.
        assert (H1 : holds h ((z, BEl k x x) :: (x, BEl i 0 z) :: R)) by (eapply holds_perm; [exact H0|perm]).
        destruct (holds_set_next _ _ _ _ _ _ 0 H1) as (h1 & -> & H2). rewrite bind_done.
        destruct (holds_set_prev _ _ _ _ _ _ z H2) as (h2 & -> & H3). rewrite bind_done. rewrite ?bind_done.
        do 3 eexists. split; [reflexivity|]. eapply holds_perm; [exact H3|]. unfold els. cbn [app last_of els_from first_of]. perm.
      * cbn [app] in E. injection E as -> -> ->. cbn [els_from first_of last_of app] in EA. rewrite EA in H0.
        set (B := els_from y' r z) in *.
        assert (H1 : holds h ((z, BEl k x (last_of r y')) :: (y', BEl j' (first_of r z) x) :: (x, BEl i 0 z) :: B ++ R)) by (eapply holds_perm; [exact H0|perm]).
        destruct (holds_set_next _ _ _ _ _ _ 0 H1) as (h1 & -> & H2). rewrite bind_done.
        assert (H2' : holds h1 ((y', BEl j' (first_of r z) x) :: (z, BEl k 0 (last_of r y')) :: (x, BEl i 0 z) :: B ++ R)) by (eapply holds_perm; [exact H2|perm]).
        destruct (holds_set_prev _ _ _ _ _ _ z H2') as (h2 & -> & H3). rewrite ?bind_done.
        do 3 eexists. split; [reflexivity|]. eapply holds_perm; [exact H3|]. unfold els. rewrite app_nil_r. cbn [app last_of els_from first_of].
        rewrite last_of_app. cbn [last_of]. rewrite els_from_app, first_of_app. cbn [first_of els_from]. fold B. perm.
    + (* an element in the middle *)
      cbn [last_of first_of els_from] in *. change n with y2 in *.
      set (q := last_of l2 y2) in *. rewrite EA in H0. set (B := els_from q r z) in *.
      assert (H1 : holds h ((z, BEl k x (last_of r q)) :: (y2, BEl j2 (first_of l2 0) x) :: (x, BEl i y2 z) :: B ++ els_from y2 l2 0 ++ R)) by (eapply holds_perm; [exact H0|perm]).
      destruct (holds_set_next _ _ _ _ _ _ y2 H1) as (h1 & -> & H2). rewrite bind_done.
      assert (H2' : holds h1 ((y2, BEl j2 (first_of l2 0) x) :: (z, BEl k y2 (last_of r q)) :: (x, BEl i y2 z) :: B ++ els_from y2 l2 0 ++ R)) by (eapply holds_perm; [exact H2|perm]).
      pose proof (holds_nz _ _ _ _ H2') as NY2. destruct (Z.eqb_spec y2 0); [contradiction|]. cbn [negb].
      destruct (holds_set_prev _ _ _ _ _ _ z H2') as (h2 & -> & H3). rewrite ?bind_done.
      do 3 eexists. split; [reflexivity|]. eapply holds_perm; [exact H3|]. unfold els.
      change ((y, j) :: l1 ++ (y2, j2) :: l2) with (((y, j) :: l1) ++ (y2, j2) :: l2). rewrite E.
      rewrite <- app_assoc. cbn [app]. rewrite last_of_app. cbn [last_of]. fold q. rewrite els_from_app. cbn [els_from first_of]. fold B. perm.
Qed.

(** Walking along a list. *)
Lemma dl_search_ok h val l R : forall f p l1, holds h (els_from p (l1 ++ l) 0 ++ R) -> (length l < f)%nat ->
  dl_search f h (first_of l 0) val = Done (match find (fun y => snd y =? val) l with Some y => fst y | None => 0 end).
Proof.
  induction l as [|[x i] l IH]; intros f p l1 H L; destruct f as [|f]; try (cbn [length] in L; lia); cbn [first_of dl_search].
  - reflexivity.
  - assert (H0 : exists q S, holds h ((x, BEl i (first_of l 0) q) :: S)).
    { rewrite els_from_app in H. cbn [els_from] in H. do 2 eexists. eapply holds_perm; [exact H|]. perm. }
    destruct H0 as (q & S & H0). pose proof (holds_nz _ _ _ _ H0). destruct (Z.eqb_spec x 0); [contradiction|].
    rewrite (holds_get_el _ _ _ _ _ _ H0), bind_done. cbn [find snd fst]. destruct (i =? val); auto.
    apply (IH f p (l1 ++ [(x, i)])); [|cbn [length] in L; lia]. now rewrite <- app_assoc.
Qed.
Lemma dl_count_ok h l R : forall f p l1, holds h (els_from p (l1 ++ l) 0 ++ R) -> (length l < f)%nat ->
  dl_count f h (first_of l 0) = Done (lenZ l).
Proof.
  induction l as [|[x i] l IH]; intros f p l1 H L; destruct f as [|f]; try (cbn [length] in L; lia); cbn [first_of dl_count].
  - reflexivity.
  - assert (H0 : exists q S, holds h ((x, BEl i (first_of l 0) q) :: S)).
    { rewrite els_from_app in H. cbn [els_from] in H. do 2 eexists. eapply holds_perm; [exact H|]. perm. }
    destruct H0 as (q & S & H0). pose proof (holds_nz _ _ _ _ H0). destruct (Z.eqb_spec x 0); [contradiction|].
    rewrite (holds_get_el _ _ _ _ _ _ H0), bind_done.
    rewrite (IH f p (l1 ++ [(x, i)])); [|rewrite <- app_assoc; exact H|cbn [length] in L; lia]. rewrite bind_done.
    unfold lenZ. cbn [length]. f_equal. lia.
Qed.
