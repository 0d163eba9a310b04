(** Proofs about cl2c. *)
From Coq Require Import ZArith List Bool Lia String.
From Verif Require Import SpecBits Cl2cModel SpecC.
Import ListNotations.
Open Scope Z_scope.

Lemma splice_cons a l : ~ (a = 92 /\ hd 0 l = 10) -> splice (a :: l) = a :: splice l.
Proof.
  intros H. destruct l as [|b l]; [reflexivity|]. cbn [hd] in H. change (splice (a :: b :: l)) with (if (a =? 92) && (b =? 10) then splice l else a :: splice (b :: l)).
  destruct (Z.eqb_spec a 92), (Z.eqb_spec b 10); cbn [andb]; auto. exfalso. auto.
Qed.
Lemma tri_cons a l : ~ (a = 63 /\ hd 0 l = 63) -> trigraphs (a :: l) = a :: trigraphs l.
Proof.
  intros H. destruct l as [|b l]; [reflexivity|]. cbn [hd] in H. destruct l as [|c l]; [reflexivity|].
  change (trigraphs (a :: b :: c :: l)) with (if (a =? 63) && (b =? 63) then match trigraph c with Some d => d :: trigraphs l | None => a :: trigraphs (b :: c :: l) end else a :: trigraphs (b :: c :: l)).
  destruct (Z.eqb_spec a 63), (Z.eqb_spec b 63); cbn [andb]; auto. exfalso. auto.
Qed.
Lemma splice_plain l t : ~ In 92 l -> splice (l ++ t) = l ++ splice t.
Proof. induction l as [|a l IH]; intros H; [reflexivity|]. cbn [app]. rewrite splice_cons, IH; auto; [intros X; apply H; right; auto|intros [-> _]; apply H; left; auto]. Qed.
Lemma tri_plain l t : ~ In 63 l -> trigraphs (l ++ t) = l ++ trigraphs t.
Proof. induction l as [|a l IH]; intros H; [reflexivity|]. cbn [app]. rewrite tri_cons, IH; auto; [intros X; apply H; right; auto|intros [-> _]; apply H; left; auto]. Qed.
Lemma emit_head l t x : x <> 92 -> x <> 34 -> hd 0 t <> x -> (x <> 10 -> hd 0 l <> x \/ l = []) -> hd 0 (emit_all l ++ t) <> x.
Proof.
  intros H1 H2 H3 H4. destruct l as [|c l]; [exact H3|]. cbn [emit_all hd] in *. unfold emit, NL, BACKSLASH, QUOTE, LETTER_N in *.
  destruct (Z.eqb_spec c 10); [cbn; lia|]. destruct (Z.eqb_spec c 92); [cbn; lia|]. destruct (Z.eqb_spec c 34); [cbn; lia|]. cbn [app hd]. destruct (Z.eq_dec x 10); [lia|]. destruct (H4 n2) as [H|H]; [auto|discriminate].
Qed.
Lemma splice_emit l t : hd 0 t <> 10 -> splice (emit_all l ++ t) = emit_all l ++ splice t.
Proof.
  intros Ht. induction l as [|c l IH]; [reflexivity|]. cbn [emit_all]. rewrite <- !app_assoc. assert (H : hd 0 (emit_all l ++ t) <> 10) by (apply emit_head; auto; lia).
  unfold emit, NL, BACKSLASH, QUOTE, LETTER_N. destruct (Z.eqb_spec c 10); [|destruct (Z.eqb_spec c 92); [|destruct (Z.eqb_spec c 34)]]; cbn [app]; rewrite ?splice_cons by (cbn [hd]; lia); rewrite IH; reflexivity.
Qed.
Lemma tri_emit l t : no_qq l -> hd 0 t <> 63 -> trigraphs (emit_all l ++ t) = emit_all l ++ trigraphs t.
Proof.
  intros HQ Ht. induction l as [|c l IH]; [reflexivity|]. cbn [emit_all]. rewrite <- !app_assoc.
  assert (HQ' : no_qq l) by (destruct l; [exact I|apply HQ]). specialize (IH HQ').
  assert (H : c = 63 -> hd 0 (emit_all l ++ t) <> 63).
  { intros ->. apply emit_head; auto; try lia. intros _. destruct l as [|d l]; [auto|]. left. cbn [hd]. destruct HQ as [HQ _]. lia. }
  unfold emit, NL, BACKSLASH, QUOTE, LETTER_N in *. destruct (Z.eqb_spec c 10); [|destruct (Z.eqb_spec c 92); [|destruct (Z.eqb_spec c 34)]]; cbn [app];
    rewrite ?tri_cons by (cbn [hd]; lia); rewrite IH; reflexivity.
Qed.
Lemma literals_emit l t v : literals true false t = Some v -> literals true false (emit_all l ++ t) = Some (l ++ v).
Proof.
  intros Ht. induction l as [|c l IH]; [exact Ht|]. cbn [emit_all]. rewrite <- !app_assoc. unfold emit, NL, BACKSLASH, QUOTE, LETTER_N.
  destruct (Z.eqb_spec c 10) as [->|]; [|destruct (Z.eqb_spec c 92) as [->|]; [|destruct (Z.eqb_spec c 34) as [->|]]]; cbn [app].
  - change (literals true false (92 :: 110 :: 34 :: 10 :: 34 :: emit_all l ++ t)) with (option_map (cons 10) (literals true false (emit_all l ++ t))). now rewrite IH.
  - change (literals true false (92 :: 92 :: emit_all l ++ t)) with (option_map (cons 92) (literals true false (emit_all l ++ t))). now rewrite IH.
  - change (literals true false (92 :: 34 :: emit_all l ++ t)) with (option_map (cons 34) (literals true false (emit_all l ++ t))). now rewrite IH.
  - cbn [literals]. destruct (Z.eqb_spec c 10); [lia|]. destruct (Z.eqb_spec c 34); [lia|]. destruct (Z.eqb_spec c 92); [lia|]. now rewrite IH.
Qed.
Lemma strip_app p t : strip p (p ++ t) = Some t.
Proof. induction p as [|a p IH]; [reflexivity|]. cbn [app strip]. rewrite Z.eqb_refl. exact IH. Qed.
Lemma c_string_all l : ~ In 0 l -> c_string l = l.
Proof. induction l as [|a l IH]; intros H; [reflexivity|]. cbn [c_string]. destruct (Z.eqb_spec a 0) as [->|]; [exfalso; apply H; left; auto|]. f_equal. apply IH. intros X. apply H. right. auto. Qed.
Definition head_of (name : list Z) : list Z := bytes_of "const char *" ++ name ++ bytes_of " =".
Theorem cl2c_ok tri text name : Forall name_char name -> (tri = true -> no_qq text) ->
  read_declaration tri (head_of name) (snd (cl2c (Some text) name)) = Some text.
Proof.
  intros N Q. assert (N92 : ~ In 92 (head_of name)).
  { unfold head_of. intros H. apply in_app_or in H. destruct H as [H|H]; [vm_compute in H; intuition discriminate|]. apply in_app_or in H. destruct H as [H|H]; [|vm_compute in H; intuition discriminate].
    pose proof (proj1 (Forall_forall _ _) N _ H) as X. unfold name_char in X. lia. }
  assert (N63 : ~ In 63 (head_of name)).
  { unfold head_of. intros H. apply in_app_or in H. destruct H as [H|H]; [vm_compute in H; intuition discriminate|]. apply in_app_or in H. destruct H as [H|H]; [|vm_compute in H; intuition discriminate].
    pose proof (proj1 (Forall_forall _ _) N _ H) as X. unfold name_char in X. lia. }
  unfold cl2c. cbn [snd]. set (tl := [QUOTE; NL] ++ bytes_of ";" ++ [NL]).
  assert (E : bytes_of "const char *" ++ name ++ bytes_of " =" ++ [NL; QUOTE] ++ emit_all text ++ tl = head_of name ++ ([NL; QUOTE] ++ (emit_all text ++ tl))) by (unfold head_of; now rewrite <- !app_assoc).
  rewrite E. unfold read_declaration.
  assert (T : (if tri then trigraphs (head_of name ++ [NL; QUOTE] ++ emit_all text ++ tl) else head_of name ++ [NL; QUOTE] ++ emit_all text ++ tl) = head_of name ++ [NL; QUOTE] ++ emit_all text ++ tl).
  { destruct tri; [|reflexivity]. rewrite tri_plain by auto. rewrite (tri_plain [NL; QUOTE]) by (vm_compute; intuition discriminate). rewrite tri_emit by (auto; vm_compute; discriminate). do 2 f_equal. }
  rewrite T, splice_plain by auto. rewrite (splice_plain [NL; QUOTE]) by (vm_compute; intuition discriminate). rewrite splice_emit by (vm_compute; discriminate). rewrite strip_app.
  change (literals false false ([NL; QUOTE] ++ emit_all text ++ splice tl)) with (literals true false (emit_all text ++ splice tl)). erewrite literals_emit by reflexivity. now rewrite app_nil_r.
Qed.
