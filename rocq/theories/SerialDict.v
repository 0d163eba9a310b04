(** The dictionaries of the serial compressor: the table finds a value exactly
    when it is among the values still present in the ring buffer, and the index
    it returns denotes the most recent occupant of that slot. *)
From Coq Require Import ZArith List Bool Lia.
From Verif Require Import SpecBits CBase BitsLemmas CrcProofs SerialCompModel.
Import ListNotations.
Open Scope Z_scope.

(** * The association list *)
Lemma hash_find_del h k k' : hash_find (hash_del h k) k' = if k =? k' then None else hash_find h k'.
Proof.
  induction h as [|[q l] h IH]; cbn.
  - now destruct (k =? k').
  - destruct (Z.eqb_spec q k) as [->|N].
    + rewrite IH. destruct (Z.eqb_spec k k'); auto.
    + cbn. rewrite IH. destruct (Z.eqb_spec q k') as [->|]; auto.
      destruct (Z.eqb_spec k k'); congruence.
Qed.
Lemma hash_find_upd h k l k' : hash_find (hash_upd h k l) k' =
  if k =? k' then (match hash_find h k' with None => None | Some _ => Some l end) else hash_find h k'.
Proof.
  induction h as [|[q l0] h IH]; cbn.
  - now destruct (k =? k').
  - destruct (Z.eqb_spec q k) as [->|N]; cbn.
    + destruct (Z.eqb_spec k k') as [->|]; auto.
    + destruct (Z.eqb_spec q k') as [->|]; auto.
      destruct (Z.eqb_spec k k'); congruence.
Qed.
Lemma dl_mem_In i l : dl_mem i l = true <-> In i l.
Proof.
  unfold dl_mem. rewrite existsb_exists. split.
  - intros (x & Hx & E). apply Z.eqb_eq in E. now subst.
  - intros H. exists i. split; auto. apply Z.eqb_refl.
Qed.
Lemma dl_remove_In i j l : NoDup l -> (In j (dl_remove i l) <-> In j l /\ j <> i).
Proof.
  induction 1 as [|x l Hx Hl IH]; cbn; [tauto|].
  destruct (Z.eqb_spec x i) as [->|N].
  - split. { intros H; split; auto. intros ->; auto. } intros [[->|H] NE]; [easy|auto].
  - cbn. rewrite IH. split. { intros [->|[H NE]]; auto. } intros [[->|H] NE]; auto.
Qed.
Lemma dl_remove_NoDup i l : NoDup l -> NoDup (dl_remove i l).
Proof.
  induction 1 as [|x l Hx Hl IH]; cbn; [constructor|].
  destruct (Z.eqb_spec x i); auto. constructor; auto.
  rewrite dl_remove_In by auto. tauto.
Qed.

(** * Ring buffer slots *)
(** item [k] (of [c] items) is the most recent occupant of slot [i] of [N] *)
Definition latest (N c : nat) (i : Z) (k : nat) : Prop :=
  Z.of_nat (k mod N) = i /\ (k < c <= k + N)%nat.

Lemma latest_S N c i k : (0 < N)%nat ->
  latest N (S c) i k <-> (k = c /\ i = Z.of_nat (c mod N)) \/ (latest N c i k /\ i <> Z.of_nat (c mod N)).
Proof.
  intros HN. unfold latest.
  pose proof (Nat.div_mod k N ltac:(lia)) as DK. pose proof (Nat.div_mod c N ltac:(lia)) as DC.
  pose proof (Nat.mod_upper_bound k N ltac:(lia)) as MK. pose proof (Nat.mod_upper_bound c N ltac:(lia)) as MC.
  split.
  - intros [E B]. destruct (Nat.eq_dec k c) as [->|NE]; [left; split; auto|].
    right. split; [split; auto; lia|]. intros E'. subst i.
    assert (EQ : (k mod N = c mod N)%nat) by lia. rewrite EQ in DK.
    assert (Z.of_nat c - Z.of_nat k = Z.of_nat N * (Z.of_nat (c / N) - Z.of_nat (k / N))) by nia.
    assert (0 < Z.of_nat (c / N) - Z.of_nat (k / N)) by nia. nia.
  - intros [[-> ->]|[[E B] NE]].
    + split; auto. lia.
    + split; auto. split; [lia|].
      destruct (Nat.eq_dec c (k + N)) as [->|]; [|lia].
      exfalso. apply NE. rewrite <- E. f_equal.
      replace (k + N)%nat with (k + 1 * N)%nat by lia. now rewrite Nat.mod_add by lia.
Qed.
Lemma latest_fun N c i k k' : (0 < N)%nat -> latest N c i k -> latest N c i k' -> k = k'.
Proof.
  intros HN [E1 B1] [E2 B2].
  pose proof (Nat.div_mod k N ltac:(lia)) as DK. pose proof (Nat.div_mod k' N ltac:(lia)) as DC.
  assert (EQ : (k mod N = k' mod N)%nat) by lia. rewrite EQ in DK.
  assert (k / N = k' / N)%nat by nia. nia.
Qed.
Lemma latest_range N c i k : (0 < N)%nat -> latest N c i k -> 0 <= i < Z.of_nat N.
Proof. intros HN [E B]. pose proof (Nat.mod_upper_bound k N ltac:(lia)). lia. Qed.

(** [dict_ok N h t]: [t] reflects the history [h] of items. *)
Record dict_ok (N : nat) (h : list Z) (t : dict) : Prop := mkDictOk {
  dk_len : length (d_node t) = N;
  dk_node : forall i k, latest N (length h) i k -> nth (Z.to_nat i) (d_node t) 0 = nth k h 0;
  dk_find : forall v i, (exists l, hash_find (d_ht t) v = Some l /\ In i l) <->
                        (exists k, latest N (length h) i k /\ nth k h 0 = v);
  dk_list : forall v l, hash_find (d_ht t) v = Some l -> l <> [] /\ NoDup l }.

Lemma dict_ok_init N : dict_ok N [] (init_dict N).
Proof.
  constructor; cbn [init_dict d_node d_ht length hash_find].
  - apply repeat_length.
  - intros i k [E B]. lia.
  - intros v i. split. { intros (l & E & _); discriminate. } intros (k & [E B] & _). lia.
  - intros; discriminate.
Qed.

Lemma replace_hash_ok N h t v : (0 < N)%nat -> dict_ok N h t ->
  exists t', replace_hash t (Z.of_nat (length h mod N)) v = Done t' /\ dict_ok N (h ++ [v]) t'.
Proof.
  intros HN [DL DN DF DLi].
  set (idx := Z.of_nat (length h mod N)).
  pose proof (Nat.mod_upper_bound (length h) N ltac:(lia)) as MB.
  assert (RI : 0 <= idx < lenZ (d_node t)) by (unfold idx, lenZ; lia).
  unfold replace_hash. rewrite aget_ok, aset_ok by auto. rewrite !bind_done.
  set (old := nth (Z.to_nat idx) (d_node t) 0).
  set (node' := firstn (Z.to_nat idx) (d_node t) ++ v :: skipn (S (Z.to_nat idx)) (d_node t)).
  set (ht1 := match hash_find (d_ht t) old with
    | None => d_ht t
    | Some l => if dl_mem idx l then
        if lenZ (dl_remove idx l) =? 0 then hash_del (d_ht t) old else hash_upd (d_ht t) old (dl_remove idx l)
      else d_ht t end).
  (* contents of ht1 *)
  assert (H1 : forall w i, (exists l, hash_find ht1 w = Some l /\ In i l) <->
     (exists l, hash_find (d_ht t) w = Some l /\ In i l) /\ i <> idx).
  { intros w i.
    assert (NOI : forall w l, hash_find (d_ht t) w = Some l -> In idx l -> w = old).
    { intros w' l' F I'. assert (X : exists l, hash_find (d_ht t) w' = Some l /\ In idx l) by eauto.
      apply DF in X. destruct X as (k & L & E). pose proof (DN _ _ L). unfold old. congruence. }
    unfold ht1. destruct (hash_find (d_ht t) old) as [l|] eqn:FO.
    - destruct (DLi _ _ FO) as [NEl ND].
      destruct (dl_mem idx l) eqn:M.
      + assert (RM : forall j, In j (dl_remove idx l) <-> In j l /\ j <> idx) by (intros; now apply dl_remove_In).
        destruct (Z.eqb_spec (lenZ (dl_remove idx l)) 0) as [E0|NE0].
        * assert (EN : dl_remove idx l = []).
          { destruct (dl_remove idx l); auto. rewrite lenZ_cons in E0. pose proof (lenZ_nonneg l0). lia. }
          rewrite hash_find_del. destruct (Z.eqb_spec old w) as [<-|NW].
          -- split. { intros (l' & E & _); discriminate. }
             intros [(l' & E & I') NE]. rewrite FO in E. injection E as <-.
             assert (In i (dl_remove idx l)) by (apply RM; auto). rewrite EN in H. easy.
          -- split.
             ++ intros (l' & F & I'). split; eauto. intros ->. apply NW. symmetry. eapply NOI; eauto.
             ++ intros [(l' & F & I') NE]. eauto.
        * rewrite hash_find_upd. destruct (Z.eqb_spec old w) as [<-|NW].
          -- rewrite FO. split.
             ++ intros (l' & E & I'). injection E as <-. apply RM in I'. destruct I'. split; eauto.
             ++ intros [(l' & E & I') NE]. injection E as <-. exists (dl_remove idx l). split; auto. apply RM; auto.
          -- split.
             ++ intros (l' & F & I'). split; eauto. intros ->. apply NW. symmetry. eapply NOI; eauto.
             ++ intros [(l' & F & I') NE]. eauto.
      + split.
        * intros (l' & F & I'). split; eauto. intros ->. assert (w = old) by (eapply NOI; eauto). subst w.
          rewrite FO in F. injection F as <-. apply dl_mem_In in I'. congruence.
        * intros [(l' & F & I') NE]; eauto.
    - split.
      + intros (l' & F & I'). split; eauto. intros ->. assert (w = old) by (eapply NOI; eauto). subst w. congruence.
      + intros [(l' & F & I') NE]; eauto. }
  assert (H1L : forall w l, hash_find ht1 w = Some l -> l <> [] /\ NoDup l).
  { intros w l F. unfold ht1 in F. destruct (hash_find (d_ht t) old) as [l0|] eqn:FO; eauto.
    destruct (DLi _ _ FO) as [NEl ND].
    destruct (dl_mem idx l0) eqn:M; eauto.
    destruct (Z.eqb_spec (lenZ (dl_remove idx l0)) 0) as [E0|NE0].
    - rewrite hash_find_del in F. destruct (old =? w); [discriminate|]. eauto.
    - rewrite hash_find_upd in F. destruct (Z.eqb_spec old w) as [<-|NW]; eauto.
      rewrite FO in F. injection F as <-. split. { intros E. rewrite E in NE0. now apply NE0. }
      now apply dl_remove_NoDup. }
  clearbody ht1.
  set (ht2 := match hash_find ht1 v with None => (v, []) :: ht1 | Some _ => ht1 end).
  set (ht3 := match hash_find ht2 v with None => ht2 | Some l => hash_upd ht2 v (l ++ [idx]) end).
  assert (H3 : forall w, hash_find ht3 w =
     if v =? w then Some (match hash_find ht1 v with Some l => l ++ [idx] | None => [idx] end) else hash_find ht1 w).
  { intros w. unfold ht3, ht2. destruct (hash_find ht1 v) as [l|] eqn:F.
    - rewrite F. rewrite hash_find_upd. destruct (Z.eqb_spec v w) as [<-|]; auto. now rewrite F.
    - cbn [hash_find]. rewrite Z.eqb_refl. rewrite hash_find_upd. cbn [hash_find].
      destruct (Z.eqb_spec v w) as [<-|]; auto. }
  clearbody ht3.
  exists (mkDict node' ht3). split; [reflexivity|].
  assert (LH : length (h ++ [v]) = S (length h)) by (rewrite app_length; cbn; lia).
  constructor; cbn [d_node d_ht]; rewrite ?LH.
  - unfold node'. rewrite upd_length; auto. unfold lenZ in RI. lia.
  - intros i k L. apply latest_S in L; auto. destruct L as [[-> ->]|[L NE]].
    + rewrite app_nth2, Nat.sub_diag by lia. cbn [nth]. unfold node'. fold idx.
      apply nth_upd_same. unfold lenZ in RI; lia.
    + unfold node'. pose proof (latest_range _ _ _ _ HN L). rewrite nth_upd_other; [|unfold lenZ in RI; lia|].
      2:{ intros E. apply NE. fold idx. lia. }
      destruct L as [E B]. rewrite app_nth1 by lia. apply DN. split; auto.
  - intros w i. rewrite H3. split.
    + intros (l & F & I').
      destruct (Z.eqb_spec v w) as [<-|NW].
      * injection F as <-.
        assert (IC : i = idx \/ exists l, hash_find ht1 v = Some l /\ In i l).
        { destruct (hash_find ht1 v) as [l|]. { apply in_app_or in I'. destruct I' as [I'|[<-|[]]]; eauto. }
          destruct I' as [<-|[]]; auto. }
        destruct IC as [->|IC].
        -- exists (length h). split. { apply latest_S; auto. } rewrite app_nth2, Nat.sub_diag by lia. reflexivity.
        -- apply H1 in IC. destruct IC as [IC NE]. apply DF in IC. destruct IC as (k & L & E).
           exists k. split. { apply latest_S; auto. } destruct L. rewrite app_nth1 by lia. auto.
      * assert (IC : exists l, hash_find ht1 w = Some l /\ In i l) by eauto.
        apply H1 in IC. destruct IC as [IC NE]. apply DF in IC. destruct IC as (k & L & E).
        exists k. split. { apply latest_S; auto. } destruct L. rewrite app_nth1 by lia. auto.
    + intros (k & L & E). apply latest_S in L; auto. destruct L as [[-> ->]|[L NE]].
      * rewrite app_nth2, Nat.sub_diag in E by lia. cbn [nth] in E. subst w. rewrite Z.eqb_refl.
        eexists; split; [reflexivity|]. fold idx. destruct (hash_find ht1 v); [apply in_or_app; right|]; left; auto.
      * destruct (L) as [E0 B]. rewrite app_nth1 in E by lia.
        assert (IC : exists l, hash_find ht1 w = Some l /\ In i l).
        { apply H1. split; [apply DF; eauto|]. exact NE. }
        destruct IC as (l & F & I').
        destruct (Z.eqb_spec v w) as [<-|NW]; eauto.
        rewrite F. eexists; split; [reflexivity|]. apply in_or_app; auto.
  - intros w l F. rewrite H3 in F. destruct (Z.eqb_spec v w) as [<-|NW]; eauto.
    injection F as <-. destruct (hash_find ht1 v) as [l|] eqn:F1.
    + destruct (H1L _ _ F1) as [NEl ND]. split. { intros E. now apply app_eq_nil in E. }
      apply NoDup_rev in ND. rewrite <- (rev_involutive (l ++ [idx])). apply NoDup_rev.
      rewrite rev_app_distr. cbn [rev app]. constructor; auto.
      intros I'. apply in_rev in I'.
      assert (IC : exists l, hash_find ht1 v = Some l /\ In idx l) by eauto. apply H1 in IC. tauto.
    + split; [discriminate|]. constructor; auto. constructor.
Qed.

(** * Lookups *)
Lemma find_index_spec N h t v : (0 < N)%nat -> dict_ok N h t ->
  (0 <= find_index t v /\ exists k, latest N (length h) (find_index t v) k /\ nth k h 0 = v)
  \/ (find_index t v = -1 /\ forall i k, latest N (length h) i k -> nth k h 0 <> v).
Proof.
  intros HN D. unfold find_index.
  destruct (hash_find (d_ht t) v) as [[|i l]|] eqn:F.
  - destruct (dk_list _ _ _ D _ _ F). easy.
  - assert (X : exists l', hash_find (d_ht t) v = Some l' /\ In i l') by (exists (i :: l); split; [auto|left; auto]).
    apply (dk_find _ _ _ D) in X. destruct X as (k & L & E). left. split; eauto.
    apply latest_range in L; auto; lia.
  - right. split; auto. intros i k L E.
    assert (X : exists k, latest N (length h) i k /\ nth k h 0 = v) by eauto.
    apply (dk_find _ _ _ D) in X. destruct X as (l & F' & _). congruence.
Qed.

(** * The three dictionaries against the input processed so far *)
Definition items (n : nat) (l : list Z) : list Z :=
  map (fun k => be_val (slice (k * n) n l)) (seq 0 (length l / n)).

Lemma items_length n l : length (items n l) = (length l / n)%nat.
Proof. unfold items. now rewrite map_length, seq_length. Qed.
Lemma nth_items n l k : (k < length l / n)%nat -> nth k (items n l) 0 = be_val (slice (k * n) n l).
Proof.
  intros. unfold items.
  rewrite nth_indep with (d' := be_val (slice (0 * n) n l)) by (rewrite map_length, seq_length; auto).
  rewrite (map_nth (fun k => be_val (slice (k * n) n l))). rewrite seq_nth; auto.
Qed.
Lemma slice_app_l {A} p n (a b : list A) : (p + n <= length a)%nat -> slice p n (a ++ b) = slice p n a.
Proof.
  intros. unfold slice. rewrite skipn_app, firstn_app, skipn_length.
  replace (n - (length a - p))%nat with 0%nat by lia. rewrite firstn_O. apply app_nil_r.
Qed.
Lemma slice_app_r {A} p n (a b : list A) : (length a <= p)%nat -> slice p n (a ++ b) = slice (p - length a) n b.
Proof. intros. unfold slice. rewrite skipn_app, skipn_all2 by lia. reflexivity. Qed.

Definition upd (ds : dicts) (b : list Z) (pos : Z) (dt : data) : dicts :=
  match update_hashtables ds dt pos with Done d => d | _ => ds end.

Record dicts_ok (pre : list Z) (ds : dicts) : Prop := mkDictsOk {
  do_8 : dict_ok 256 (items 8 pre) (dict8 ds);
  do_4 : dict_ok 512 (items 4 pre) (dict4 ds);
  do_2 : dict_ok 256 (items 2 pre) (dict2 ds) }.

Lemma dicts_ok_init : dicts_ok [] init_dicts.
Proof. constructor; apply dict_ok_init. Qed.

(** The data fields computed from one block. *)
Definition block_data (b : list Z) : data :=
  mkData (be_val b) [be_val (slice 0 4 b); be_val (slice 4 4 b)]
         [be_val (slice 0 2 b); be_val (slice 2 2 b); be_val (slice 4 2 b); be_val (slice 6 2 b)].

Lemma items_app n pre b q : length pre = (q * n)%nat -> (0 < n)%nat ->
  items n (pre ++ b) = items n pre ++ items n b.
Proof.
  intros HL Hn. unfold items at 1. rewrite app_length, HL.
  rewrite Nat.add_comm, Nat.div_add, Nat.add_comm by lia. rewrite seq_app, map_app. f_equal.
  - unfold items. rewrite HL, Nat.div_mul by lia. apply map_ext_in. intros k Hk. apply in_seq in Hk.
    rewrite slice_app_l; auto. nia.
  - unfold items. cbn [plus].
    assert (G : forall m s, map (fun k => be_val (slice (k * n) n (pre ++ b))) (seq (s + q) m) =
                       map (fun k => be_val (slice (k * n) n b)) (seq s m)).
    { induction m; intros; cbn [seq map]; auto. f_equal.
      - f_equal. rewrite slice_app_r by nia. f_equal. rewrite HL. nia.
      - apply (IHm (S s)). }
    apply (G _ 0%nat).
Qed.

Lemma block_items b : length b = 8%nat ->
  items 8 b = [be_val b] /\ items 4 b = data4 (block_data b) /\ items 2 b = data2 (block_data b).
Proof.
  intros HL. destruct b as [|b0 [|b1 [|b2 [|b3 [|b4 [|b5 [|b6 [|b7 [|]]]]]]]]]; try discriminate.
  repeat split.
Qed.

Lemma mod_idx (pre : nat) (q n N d : nat) sh : pre = (8 * q)%nat -> (0 < n)%nat -> Z.of_nat n = 2 ^ sh -> 0 <= sh ->
  (exists c, 8 = c * n)%nat -> (exists g, N = (8 / n) * g)%nat -> (0 < N)%nat -> (d < 8 / n)%nat ->
  Z.shiftr (Z.of_nat pre) sh mod Z.of_nat N + Z.of_nat d = Z.of_nat ((pre / n + d) mod N).
Proof.
  intros -> Hn Hsh Hs [c Hc] [g Hg] HN Hd.
  rewrite Z.shiftr_div_pow2, <- Hsh by lia.
  rewrite <- Nat2Z.inj_div, <- Nat2Z.inj_mod, <- Nat2Z.inj_add. f_equal.
  assert (E : (8 * q / n = c * q)%nat).
  { rewrite Hc. replace (c * n * q)%nat with (c * q * n)%nat by lia. apply Nat.div_mul. lia. }
  assert (E8 : (8 / n = c)%nat) by (rewrite Hc; apply Nat.div_mul; lia).
  rewrite E, E8 in *. 
  assert (Hc0 : (0 < c)%nat) by (destruct c; lia).
  assert (Hg0 : (0 < g)%nat) by (destruct g; lia).
  rewrite Hg. rewrite Nat.mul_mod_distr_l by lia.
  rewrite Nat.add_mod, Nat.mul_mod_distr_l by lia.
  rewrite (Nat.mod_small d) by nia.
  symmetry. apply Nat.mod_small.
  pose proof (Nat.mod_upper_bound q g ltac:(lia)). nia.
Qed.

Lemma update_ok pre ds b q : length pre = (8 * q)%nat -> dicts_ok pre ds -> length b = 8%nat ->
  exists ds', update_hashtables ds (block_data b) (Z.of_nat (length pre)) = Done ds' /\ dicts_ok (pre ++ b) ds'.
Proof.
  intros HP [D8' D4' D2'] HB.
  destruct (block_items b HB) as (I8' & I4' & I2').
  unfold update_hashtables. cbn [data8 data4 data2 block_data].
  assert (IX : forall d n N sh, (0 < n)%nat -> Z.of_nat n = 2 ^ sh -> 0 <= sh ->
     (exists c, 8 = c * n)%nat -> (exists g, N = (8 / n) * g)%nat -> (0 < N)%nat -> (d < 8 / n)%nat ->
     Z.shiftr (Z.of_nat (length pre)) sh mod Z.of_nat N + Z.of_nat d = Z.of_nat ((length pre / n + d) mod N)).
  { intros. eapply mod_idx; eauto. }
  change (Z.shiftl 1 I8_BITS) with (Z.of_nat 256).
  change (Z.shiftl 1 I4_BITS) with (Z.of_nat 512).
  change (Z.shiftl 1 I2_BITS) with (Z.of_nat 256).
  rewrite !aget_ok by (cbn; lia). change (Z.to_nat 0) with 0%nat. change (Z.to_nat 1) with 1%nat.
  change (Z.to_nat 2) with 2%nat. change (Z.to_nat 3) with 3%nat. cbn [nth].
  pose proof (IX 0%nat 8%nat 256%nat 3 ltac:(lia) eq_refl ltac:(lia) ltac:(exists 1%nat; reflexivity) ltac:(exists 256%nat; reflexivity) ltac:(lia) ltac:(cbn; lia)) as X8.
  pose proof (IX 0%nat 4%nat 512%nat 2 ltac:(lia) eq_refl ltac:(lia) ltac:(exists 2%nat; reflexivity) ltac:(exists 256%nat; reflexivity) ltac:(lia) ltac:(cbn; lia)) as X40.
  pose proof (IX 1%nat 4%nat 512%nat 2 ltac:(lia) eq_refl ltac:(lia) ltac:(exists 2%nat; reflexivity) ltac:(exists 256%nat; reflexivity) ltac:(lia) ltac:(cbn; lia)) as X41.
  pose proof (IX 0%nat 2%nat 256%nat 1 ltac:(lia) eq_refl ltac:(lia) ltac:(exists 4%nat; reflexivity) ltac:(exists 64%nat; reflexivity) ltac:(lia) ltac:(cbn; lia)) as X20.
  pose proof (IX 1%nat 2%nat 256%nat 1 ltac:(lia) eq_refl ltac:(lia) ltac:(exists 4%nat; reflexivity) ltac:(exists 64%nat; reflexivity) ltac:(lia) ltac:(cbn; lia)) as X21.
  pose proof (IX 2%nat 2%nat 256%nat 1 ltac:(lia) eq_refl ltac:(lia) ltac:(exists 4%nat; reflexivity) ltac:(exists 64%nat; reflexivity) ltac:(lia) ltac:(cbn; lia)) as X22.
  pose proof (IX 3%nat 2%nat 256%nat 1 ltac:(lia) eq_refl ltac:(lia) ltac:(exists 4%nat; reflexivity) ltac:(exists 64%nat; reflexivity) ltac:(lia) ltac:(cbn; lia)) as X23.
  change (Z.of_nat 0) with 0 in *. change (Z.of_nat 1) with 1 in *. change (Z.of_nat 2) with 2 in *. change (Z.of_nat 3) with 3 in *.
  rewrite X8, X40, X41, X20, X21, X22, X23. clear X8 X40 X41 X20 X21 X22 X23 IX.
  assert (HN : (0 < 256)%nat) by lia. assert (HN5 : (0 < 512)%nat) by lia.
  assert (L8 := items_length 8 pre). assert (L4 := items_length 4 pre). assert (L2 := items_length 2 pre).
  (* 8 *)
  destruct (replace_hash_ok 256 _ _ (be_val b) HN D8') as (t8 & E8 & T8).
  rewrite L8 in E8. rewrite Nat.add_0_r, E8, bind_done.
  (* 4 *)
  destruct (replace_hash_ok 512 _ _ (be_val (slice 0 4 b)) HN5 D4') as (t40 & E40 & T40).
  rewrite L4 in E40. rewrite bind_done, Nat.add_0_r, E40, bind_done.
  destruct (replace_hash_ok 512 _ _ (be_val (slice 4 4 b)) HN5 T40) as (t41 & E41 & T41).
  rewrite app_length, L4 in E41. cbn [length] in E41. rewrite bind_done, E41, bind_done.
  (* 2 *)
  destruct (replace_hash_ok 256 _ _ (be_val (slice 0 2 b)) HN D2') as (t20 & E20 & T20).
  rewrite L2 in E20. rewrite bind_done, Nat.add_0_r, E20, bind_done.
  destruct (replace_hash_ok 256 _ _ (be_val (slice 2 2 b)) HN T20) as (t21 & E21 & T21).
  rewrite app_length, L2 in E21. cbn [length] in E21. rewrite bind_done, E21, bind_done.
  destruct (replace_hash_ok 256 _ _ (be_val (slice 4 2 b)) HN T21) as (t22 & E22 & T22).
  rewrite !app_length, L2 in E22. cbn [length] in E22.
  replace (length pre / 2 + 1 + 1)%nat with (length pre / 2 + 2)%nat in E22 by lia.
  rewrite bind_done, E22, bind_done.
  destruct (replace_hash_ok 256 _ _ (be_val (slice 6 2 b)) HN T22) as (t23 & E23 & T23).
  rewrite !app_length, L2 in E23. cbn [length] in E23.
  replace (length pre / 2 + 1 + 1 + 1)%nat with (length pre / 2 + 3)%nat in E23 by lia.
  rewrite bind_done, E23, bind_done.
  eexists; split; [reflexivity|].
  constructor; cbn [dict8 dict4 dict2].
  - rewrite (items_app 8 pre b q) by lia. now rewrite I8'.
  - rewrite (items_app 4 pre b (2 * q)) by lia. rewrite I4'. cbn [data4 block_data].
    rewrite <- app_assoc in T41. exact T41.
  - rewrite (items_app 2 pre b (4 * q)) by lia. rewrite I2'. cbn [data2 block_data].
    rewrite <- !app_assoc in T23. exact T23.
Qed.
