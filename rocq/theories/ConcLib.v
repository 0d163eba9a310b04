(** Lists of threads: replacing one element, counting, waking.  Auxiliary to the
    models of the synchronisation objects and of the streams. *)
From Coq Require Import ZArith List Bool Lia.
Import ListNotations.
Open Scope Z_scope.

(** The list [l] with its element [i] replaced by [x]. *)
Fixpoint setnth {A} (i : nat) (x : A) (l : list A) : list A :=
  match l, i with
  | [], _ => []
  | _ :: r, O => x :: r
  | y :: r, S k => y :: setnth k x r
  end.
(** How many elements of [l] satisfy [p]. *)
Fixpoint cnt {A} (p : A -> bool) (l : list A) : Z :=
  match l with [] => 0 | x :: r => (if p x then 1 else 0) + cnt p r end.
(** Sum of [f] over [l]. *)
Fixpoint sumf {A} (f : A -> Z) (l : list A) : Z :=
  match l with [] => 0 | x :: r => f x + sumf f r end.

Lemma setnth_length {A} i (x : A) l : length (setnth i x l) = length l.
Proof. revert i; induction l as [|y l IH]; intros [|i]; cbn [setnth length]; auto. Qed.
Lemma nth_setnth_same {A} i (x y : A) l : nth_error l i = Some y -> nth_error (setnth i x l) i = Some x.
Proof. revert i; induction l as [|z l IH]; intros [|i] H; cbn [setnth nth_error] in *; try discriminate; auto. Qed.
Lemma nth_setnth_other {A} i j (x : A) l : i <> j -> nth_error (setnth i x l) j = nth_error l j.
Proof.
  revert i j; induction l as [|z l IH]; intros [|i] [|j] H; cbn [setnth nth_error]; auto; try contradiction.
Qed.
Lemma cnt_setnth {A} p i (x y : A) l : nth_error l i = Some y ->
  cnt p (setnth i x l) = cnt p l - (if p y then 1 else 0) + (if p x then 1 else 0).
Proof.
  revert i; induction l as [|z l IH]; intros [|i] H; cbn [setnth nth_error cnt] in *; try discriminate.
  - injection H as ->. lia.
  - rewrite (IH i H). lia.
Qed.
Lemma sumf_setnth {A} f i (x y : A) l : nth_error l i = Some y -> sumf f (setnth i x l) = sumf f l - f y + f x.
Proof.
  revert i; induction l as [|z l IH]; intros [|i] H; cbn [setnth nth_error sumf] in *; try discriminate.
  - injection H as ->. lia.
  - rewrite (IH i H). lia.
Qed.
Lemma Forall_setnth {A} (P : A -> Prop) i x l : Forall P l -> P x -> Forall P (setnth i x l).
Proof.
  revert i; induction l as [|z l IH]; intros [|i] H Hx; cbn [setnth]; auto; inversion H; subst; constructor; auto.
Qed.
Lemma Forall_nth_error {A} (P : A -> Prop) l i x : Forall P l -> nth_error l i = Some x -> P x.
Proof. intros F H. rewrite Forall_forall in F. apply F. now apply nth_error_In in H. Qed.
Lemma cnt_nonneg {A} p (l : list A) : 0 <= cnt p l.
Proof. induction l as [|x l IH]; cbn [cnt]; [lia|]. destruct (p x); lia. Qed.
Lemma cnt_le {A} p (l : list A) : cnt p l <= Z.of_nat (length l).
Proof. induction l as [|x l IH]; cbn [cnt length]; [lia|]. destruct (p x); lia. Qed.
Lemma cnt_full {A} p (l : list A) : cnt p l = Z.of_nat (length l) -> Forall (fun x => p x = true) l.
Proof.
  induction l as [|x l IH]; cbn [cnt length]; intros H; [constructor|]. pose proof (cnt_le p l).
  destruct (p x) eqn:E; [|lia]. constructor; auto. apply IH. lia.
Qed.
Lemma cnt_all {A} p (l : list A) : Forall (fun x => p x = true) l -> cnt p l = Z.of_nat (length l).
Proof. induction 1 as [|x l H F IH]; cbn [cnt length]; [lia|]. rewrite H, IH. lia. Qed.
Lemma cnt_zero {A} p (l : list A) : Forall (fun x => p x = false) l -> cnt p l = 0.
Proof. induction 1 as [|x l H F IH]; cbn [cnt]; [lia|]. rewrite H, IH. lia. Qed.
Lemma cnt_zero_inv {A} p (l : list A) : cnt p l = 0 -> Forall (fun x => p x = false) l.
Proof.
  induction l as [|x l IH]; cbn [cnt]; intros H; [constructor|]. pose proof (cnt_nonneg p l).
  destruct (p x) eqn:E; [lia|]. constructor; auto.
Qed.
(** If all elements but number [i] are counted, and the whole is one short, ... *)
Lemma cnt_others {A} p (l : list A) i x : nth_error l i = Some x -> p x = false -> cnt p l + 1 = Z.of_nat (length l) ->
  forall j y, nth_error l j = Some y -> j <> i -> p y = true.
Proof.
  revert i; induction l as [|z l IH]; intros [|i] H Hx C [|j] y Hy N; cbn [nth_error cnt length] in *; try discriminate; try lia.
  - injection H as ->. rewrite Hx in C.
    assert (F : Forall (fun x => p x = true) l) by (apply cnt_full; lia). exact (Forall_nth_error _ _ _ _ F Hy).
  - injection Hy as ->. destruct (p y) eqn:E; auto. exfalso.
    assert (F : Forall (fun x => p x = true) l) by (apply cnt_full; lia). pose proof (Forall_nth_error _ _ _ _ F H). cbn in *. congruence.
  - pose proof (cnt_le p l). destruct (p z).
    + apply (IH i H Hx ltac:(lia) j y Hy). congruence.
    + exfalso.
      assert (F : Forall (fun x => p x = true) l) by (apply cnt_full; lia). pose proof (Forall_nth_error _ _ _ _ F H). cbn in *. congruence.
Qed.
Lemma cnt_one_le {A} p (l : list A) i x : nth_error l i = Some x -> p x = true -> 1 <= cnt p l.
Proof.
  revert i; induction l as [|z l IH]; intros [|i] H Hx; cbn [nth_error cnt] in *; try discriminate.
  - injection H as ->. rewrite Hx. pose proof (cnt_nonneg p l). lia.
  - specialize (IH i H Hx). destruct (p z); lia.
Qed.
Lemma cnt_map {A B} (f : A -> B) p l : cnt p (map f l) = cnt (fun x => p (f x)) l.
Proof. induction l as [|x l IH]; cbn [map cnt]; auto. now rewrite IH. Qed.
Lemma cnt_ext {A} p q (l : list A) : Forall (fun x => p x = q x) l -> cnt p l = cnt q l.
Proof. induction 1 as [|x l H F IH]; cbn [cnt]; auto. now rewrite H, IH. Qed.
Lemma sumf_map {A B} (f : A -> B) g l : sumf g (map f l) = sumf (fun x => g (f x)) l.
Proof. induction l as [|x l IH]; cbn [map sumf]; auto. now rewrite IH. Qed.
Lemma sumf_le {A} f g (l : list A) : Forall (fun x => f x <= g x) l -> sumf f l <= sumf g l.
Proof. induction 1 as [|x l H F IH]; cbn [sumf]; lia. Qed.
Lemma sumf_nonneg {A} f (l : list A) : Forall (fun x => 0 <= f x) l -> 0 <= sumf f l.
Proof. induction 1 as [|x l H F IH]; cbn [sumf]; lia. Qed.
Lemma sumf_const {A} f c (l : list A) : Forall (fun x => f x <= c) l -> sumf f l <= c * Z.of_nat (length l).
Proof. induction 1 as [|x l H F IH]; cbn [sumf length]; lia. Qed.
Lemma sumf_add {A} f c (l : list A) : sumf (fun x => f x + c) l = sumf f l + c * Z.of_nat (length l).
Proof. induction l as [|x l IH]; cbn [sumf length]; lia. Qed.
Lemma setnth_map {A B} (f : A -> B) i x l : setnth i (f x) (map f l) = map f (setnth i x l).
Proof. revert i; induction l as [|z l IH]; intros [|i]; cbn [map setnth]; auto. now rewrite IH. Qed.
Lemma nth_error_forall {A} (P : A -> Prop) l : (forall i x, nth_error l i = Some x -> P x) -> Forall P l.
Proof.
  intros H. rewrite Forall_forall. intros x Hx. apply In_nth_error in Hx. destruct Hx as [i Hi]. eauto.
Qed.
