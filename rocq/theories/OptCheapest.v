(** The template optsw842_compress takes is the cheapest usable one: lemmas behind PropOptimal.v. *)
From Coq Require Import ZArith List Bool Lia.
From Verif Require Import SpecBits SpecCrc Spec842 CBase BitsLemmas SerialCompModel SerialDict SerialIdeal SerialValid OptCompModel OptIdeal SpecOptimal.
Import ListNotations.
Open Scope Z_scope.

(** C62: the cheapest template for the references found *)
Definition vec_avail (v : list bool) (b n : nat) : bool := nth (vslot b n) v false.
Definition cheap_check (v : list bool) : bool :=
  match get_template (template_keys v) with
  | Done op => match template op with
               | Some acts => usable (vec_avail v) 0 acts &&
                   forallb (fun k => negb (usable (vec_avail v) 0 (oacts (Z.of_nat k))) || (acts_size acts <=? acts_size (oacts (Z.of_nat k)))%nat) (seq 0 26)
               | None => false
               end
  | _ => false
  end.
Lemma cheap_checks : forallb cheap_check vectors = true.
Proof. vm_compute. reflexivity. Qed.
Lemma template_range op acts : template op = Some acts -> 0 <= op < 26.
Proof.
  intros H. destruct op as [|p|p]; try discriminate; [lia|].
  destruct p as [p|p|]; try (destruct p as [p|p|]); try (destruct p as [p|p|]); try (destruct p as [p|p|]); try (destruct p as [p|p|]);
    try discriminate; lia.
Qed.
Definition pieces : list (nat * nat) := [(0, 2); (2, 2); (4, 2); (6, 2); (0, 4); (4, 4); (0, 8)]%nat.
Lemma usable_ext av av' b acts : acts_pos b acts = true -> Forall (fun a => act_size_ok a = true) acts ->
  (forall b n, lk_pos b n = true -> av b n = av' b n) -> usable av b acts = usable av' b acts.
Proof.
  intros P F E. revert b P. induction acts as [|a acts IH]; intros b P; [reflexivity|].
  inversion F as [|? ? Fa Fr]; subst. cbn [acts_pos] in P. rewrite andb_true_iff in P. destruct P as [Pa Pr].
  destruct a as [n|n]; cbn [usable act_len act_pos] in *; rewrite ?(IH Fr _ Pr); [reflexivity|]. now rewrite (E b n Pa).
Qed.
Lemma cheapest (avail : nat -> nat -> bool) :
  exists op acts, get_template (template_keys [avail 0 2; avail 2 2; avail 4 2; avail 6 2; avail 0 4; avail 4 4; avail 0 8]%nat) = Done op /\
    template op = Some acts /\ usable avail 0 acts = true /\
    forall op' acts', template op' = Some acts' -> usable avail 0 acts' = true -> (acts_size acts <= acts_size acts')%nat.
Proof.
  set (v := [avail 0 2; avail 2 2; avail 4 2; avail 6 2; avail 0 4; avail 4 4; avail 0 8]%nat).
  assert (AV : forall b n, lk_pos b n = true -> avail b n = vec_avail v b n).
  { intros b n H. unfold lk_pos in H. unfold vec_avail.
    destruct n as [|[|[|[|[|[|[|[|[|]]]]]]]]]; try discriminate; rewrite ?orb_true_iff, ?Nat.eqb_eq in H;
      repeat match goal with H : _ \/ _ |- _ => destruct H as [H|H] end; subst; reflexivity. }
  assert (U : forall op acts, template op = Some acts -> usable avail 0 acts = usable (vec_avail v) 0 acts).
  { intros op acts T. destruct (op_ok op (template_range _ _ T)) as (T' & F & _ & P & _).
    rewrite T in T'. injection T' as ->. now apply usable_ext. }
  pose proof cheap_checks as H. rewrite forallb_forall in H.
  specialize (H v (vectors_all _ _ _ _ _ _ _)). unfold cheap_check in H.
  destruct (get_template (template_keys v)) as [op| |]; try discriminate.
  destruct (template op) as [acts|] eqn:T; try discriminate. rewrite andb_true_iff, forallb_forall in H. destruct H as [H1 H2].
  exists op, acts. split; [reflexivity|]. split; [exact T|]. split; [now rewrite (U _ _ T)|].
  intros op' acts' T' U'. rewrite (U _ _ T') in U'. pose proof (template_range _ _ T') as R.
  destruct (op_ok op' R) as (T'' & _). rewrite T' in T''. injection T'' as ->.
  specialize (H2 (Z.to_nat op')). rewrite Z2Nat.id in H2 by lia. rewrite U' in H2. cbn [negb orb] in H2.
  apply Nat.leb_le, H2, in_seq. lia.
Qed.
