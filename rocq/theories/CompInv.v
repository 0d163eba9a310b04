(** Invariant of the compression stream. *)
From Coq Require Import ZArith List Bool Lia.
From Verif Require Import CBase BitsLemmas ConcLib BarrierModel SpecSync BarrierProofs StreamBlockModel CompStreamModel SpecStream.
Import ListNotations.
Open Scope Z_scope.

Notation BIG := BIG_OFFSET_TO_STOP_NEW_WORK.
Definition b2z (b : bool) : Z := if b then 1 else 0.
Lemma block_size : BLOCK_SIZE = 2 ^ 20.
Proof. reflexivity. Qed.

(** ** Arithmetic *)
Definition sh (g : shared) (x : Z) : Z := if g_k g =? UINT_MAX then 0 else Z.shiftr x (g_k g).
Definition lvo (g : shared) : Z := last_valid_offset (g_size g).
Definition KK (g : shared) : Z := sh g (g_size g).
Definition ep (g : shared) (off : Z) : Z := sh g (Z.min off (g_size g)).
Definition kok (g : shared) (m : Z) : Prop := (g_k g = UINT_MAX /\ m = 0) \/ (20 <= g_k g < 64 /\ m = 2 ^ g_k g).

Lemma lvo_eq size : 0 <= size < 2 ^ 64 -> last_valid_offset size = BLOCK_SIZE * (size / BLOCK_SIZE).
Proof.
  intros H. unfold last_valid_offset.
  assert (E : u64 (Z.lnot (BLOCK_SIZE - 1)) = Z.shiftl (Z.ones 44) 20) by reflexivity. rewrite E.
  assert (D : Z.land size (Z.shiftl (Z.ones 44) 20) = Z.shiftl (Z.shiftr size 20) 20).
  { apply Z.bits_inj'. intros n Hn. rewrite Z.land_spec. rewrite !Z.shiftl_spec by lia.
    destruct (Z_lt_dec n 20) as [L|L].
    - rewrite !(Z.testbit_neg_r _ (n - 20)) by lia. apply andb_false_r.
    - rewrite Z.shiftr_spec by lia. replace (n - 20 + 20) with n by lia.
      destruct (Z_lt_dec n 64) as [L2|L2].
      + rewrite Z.ones_spec_low by lia. apply andb_true_r.
      + rewrite Z.ones_spec_high by lia. rewrite andb_false_r. symmetry.
        destruct (Z.eq_dec size 0) as [->|NZ]; [apply Z.testbit_0_l|].
        apply Z.bits_above_log2; [lia|]. apply Z.log2_lt_pow2; [lia|]. apply Z.lt_le_trans with (2 ^ 64); [lia|]. apply Z.pow_le_mono_r; lia. }
  rewrite D, Z.shiftl_mul_pow2, Z.shiftr_div_pow2 by lia. rewrite block_size. lia.
Qed.
Lemma lvo_facts g : 0 <= g_size g <= BIG -> 0 <= lvo g <= g_size g /\ lvo g mod BLOCK_SIZE = 0 /\ g_size g < lvo g + BLOCK_SIZE /\ lvo g <= BIG.
Proof.
  intros H. unfold lvo, BIG in *. rewrite lvo_eq by lia. pose proof (Z.div_mod (g_size g) BLOCK_SIZE ltac:(discriminate)) as D.
  pose proof (Z.mod_pos_bound (g_size g) BLOCK_SIZE eq_refl) as M.
  split; [|split; [rewrite Z.mul_comm; apply Z.mod_mul; discriminate|lia]].
  split; [|lia]. apply Z.mul_nonneg_nonneg; [discriminate|]. apply Z.div_pos; [lia|reflexivity].
Qed.
Lemma sh_mono g m x y : kok g m -> x <= y -> sh g x <= sh g y.
Proof.
  intros K H. unfold sh. destruct K as [[-> _]|[K _]]; [rewrite Z.eqb_refl; lia|].
  destruct (g_k g =? UINT_MAX); [lia|]. rewrite !Z.shiftr_div_pow2 by lia. apply Z.div_le_mono; [apply Z.pow_pos_nonneg; lia|exact H].
Qed.
Lemma sh_0 g : sh g 0 = 0.
Proof. unfold sh. destruct (g_k g =? UINT_MAX); auto. apply Z.shiftr_0_l. Qed.
Lemma sh_nonneg g m x : kok g m -> 0 <= x -> 0 <= sh g x.
Proof. intros K H. rewrite <- (sh_0 g). now apply (sh_mono g m). Qed.
Lemma sh_lvo g m : kok g m -> 0 <= g_size g <= BIG -> sh g (lvo g) = KK g.
Proof.
  intros K H. pose proof (lvo_facts g H) as (L1 & L2 & L3 & _). unfold KK.
  destruct K as [[K _]|[K _]].
  - unfold sh. now rewrite K, Z.eqb_refl.
  - apply Z.le_antisymm; [apply (sh_mono g (2 ^ g_k g)); [right; auto|lia]|].
    unfold sh. destruct (Z.eqb_spec (g_k g) UINT_MAX); [lia|]. rewrite !Z.shiftr_div_pow2 by lia.
    assert (P : 0 < 2 ^ g_k g) by (apply Z.pow_pos_nonneg; lia).
    apply Z.div_le_lower_bound; [exact P|].
    set (q := g_size g / 2 ^ g_k g). assert (Q : 2 ^ g_k g * q <= g_size g) by (unfold q; apply Z.mul_div_le; exact P).
    assert (E : 2 ^ g_k g = BLOCK_SIZE * 2 ^ (g_k g - 20)).
    { rewrite block_size, <- Z.pow_add_r by lia. f_equal. lia. }
    rewrite E in *. set (w := 2 ^ (g_k g - 20)) in *.
    pose proof (Z.div_mod (lvo g) BLOCK_SIZE ltac:(discriminate)) as DL. rewrite L2 in DL.
    set (a := lvo g / BLOCK_SIZE) in *. rewrite <- Z.mul_assoc in *. set (b := w * q) in *.
    assert (b <= a); [|rewrite block_size in *; lia].
    assert (BLOCK_SIZE * b < BLOCK_SIZE * (a + 1)) by (rewrite block_size in *; lia). rewrite block_size in *. lia.
Qed.
Lemma ep_valid g off : 0 <= g_size g <= BIG -> off < lvo g -> ep g off = sh g off.
Proof. intros H L. pose proof (lvo_facts g H) as (L1 & _). unfold ep. f_equal. lia. Qed.
Lemma ep_over g m off : kok g m -> 0 <= g_size g <= BIG -> lvo g <= off -> ep g off = KK g.
Proof.
  intros K H L. pose proof (lvo_facts g H) as (L1 & _). unfold ep. apply Z.le_antisymm.
  - apply (sh_mono g m); auto. lia.
  - rewrite <- (sh_lvo g m K H). apply (sh_mono g m); auto. lia.
Qed.
Lemma ep_le g m off : kok g m -> ep g off <= KK g.
Proof. intros K. apply (sh_mono g m); auto. lia. Qed.
Lemma ep_bound g off : 0 <= g_size g <= BIG -> 0 <= off -> kok g (if g_k g =? UINT_MAX then 0 else 2 ^ g_k g) -> 0 <= ep g off <= BIG.
Proof.
  intros H O K. split; [apply (sh_nonneg g _ _ K); lia|]. unfold ep, sh. destruct (g_k g =? UINT_MAX) eqn:E; [discriminate|].
  destruct K as [[K _]|[K _]]; [apply Z.eqb_neq in E; contradiction|].
  rewrite Z.shiftr_div_pow2 by lia. apply Z.div_le_upper_bound; [apply Z.pow_pos_nonneg; lia|].
  assert (1 <= 2 ^ g_k g) by (change 1 with (2 ^ 0); apply Z.pow_le_mono_r; lia). unfold BIG in *. nia.
Qed.
Lemma kok_self g m : kok g m -> kok g (if g_k g =? UINT_MAX then 0 else 2 ^ g_k g).
Proof.
  intros [[K _]|[K _]]; [left; rewrite K; split; reflexivity|]. right. destruct (Z.eqb_spec (g_k g) UINT_MAX) as [E|E]; [rewrite E in K; unfold UINT_MAX in K; lia|]. auto.
Qed.
Lemma num_epochs_eq g m lo off : kok g m -> 0 <= g_size g <= BIG -> 0 <= lo <= off -> lo <= g_size g -> num_epochs g lo off = ep g off - sh g lo.
Proof.
  intros K H L S. pose proof (ep_bound g off H ltac:(lia) (kok_self g m K)) as B. unfold num_epochs, ep, sh in *. destruct (g_k g =? UINT_MAX) eqn:E; [reflexivity|].
  assert (M : sh g lo <= ep g off) by (apply (sh_mono g m); auto; lia).
  assert (Z0 : 0 <= sh g lo) by (apply (sh_nonneg g m); auto; lia).
  unfold sh, ep, sh in *. rewrite E in *. unfold u64. apply Z.mod_small. unfold BIG in *. lia.
Qed.

(** ** Threads *)
Definition gen (g : shared) : Z := b_gen (g_bar g).
Definition waitingc (gn : Z) (t : thread) : bool :=
  match fst t with CBar _ _ _ g' _ | CFinBar g' _ => g' =? gn | _ => false end.
Definition over (gn : Z) (t : thread) : bool :=
  match fst t with
  | CEpoch l _ o | CArrive l o _ | CBar l o _ _ _ => l <=? o
  | CFin _ | CFinArrive => true
  | CFinBar g' _ => g' =? gn
  | _ => false
  end.
Definition inflight (o : Z) (t : thread) : bool :=
  match fst t with
  | CEpoch l _ o' | CArrive l o' _ | CBar l o' _ _ _ | CWork l o' | CErr l o' | CCall l o' _ => (o =? o') && (o' <? l)
  | _ => false
  end.
Definition failing (t : thread) : bool := match fst t with CCall _ _ false => true | _ => false end.
Definition jump (g : shared) (op : list event) : bool := g_error g || (0 <? cancels op).

Definition trun (g : shared) (j : bool) (R H : Z) (t : thread) : Prop :=
  let '(pc, lt) := t in
  let here := lt = g_trigger g in
  match pc with
  | CStart | CLoop | CTrig false => R = 0 /\ lt = prev (g_trigger g)
  | CInit => here /\ R = 0
  | CFetch l lo => here /\ l = lvo g /\ 0 <= lo <= g_cur g /\ (lo = 0 \/ lo < lvo g) /\ sh g lo = R
  | CEpoch l lo off => here /\ l = lvo g /\ 0 <= lo <= off /\ (lo = 0 \/ lo < lvo g) /\ sh g lo = R /\ (j = false -> off < H)
  | CArrive l off n => here /\ l = lvo g /\ 0 <= off /\ 0 <= n /\ ep g off - n = R /\ (j = false -> off < H)
  | CBar l off n g' a => here /\ l = lvo g /\ 0 <= off /\ 0 <= n /\ (j = false -> off < H) /\
      ((g' = gen g /\ ep g off - n = R + 1) \/ (g' = prev (gen g) /\ a = false /\ ep g off - n = R))
  | CWork l off | CErr l off | CCall l off _ => here /\ l = lvo g /\ 0 <= off < lvo g /\ sh g off = R
  | CFin a => here /\ R = KK g /\ (a = true -> g_fin g = false) /\ (j = false -> lvo g <= H)
  | CFinArrive => here /\ R = KK g /\ g_fin g = true /\ (j = false -> lvo g <= H)
  | CFinBar g' a => (g' = gen g /\ here /\ R = KK g /\ g_fin g = true /\ (j = false -> lvo g <= H)) \/
                    (g' = prev (gen g) /\ a = false /\ R = 0 /\ lt = prev (g_trigger g))
  | CTrig true | CReset | CCallback _ _ | CExit => False
  end.
Definition tidle (g : shared) (t : thread) : Prop :=
  match fst t with
  | CStart | CLoop | CTrig _ => snd t = g_trigger g
  | CFinBar g' a => g' = prev (gen g) /\ a = false /\ snd t = g_trigger g
  | _ => False
  end.
Definition tpost (g : shared) (op : list event) (i : nat) (t : thread) : Prop :=
  snd t = g_trigger g /\
  match fst t with
  | CStart | CLoop | CTrig _ => i <> 0%nat
  | CFinBar g' a => g' = prev (gen g) /\ a = false
  | CReset => i = 0%nat
  | CCallback err present => i = 0%nat /\ present = true /\ err = (0 <? failures op)
  | _ => False
  end.

(** Thread 0 does not enter an operation from the barrier of the previous one. *)
Definition zero (gn : Z) (t : thread) : Prop := match fst t with CFinBar g' _ => g' = gn | _ => True end.
(** Indicator: the block at [o] has been fetched by some thread. *)
Definition taken (g : shared) (H o : Z) : bool := (0 <=? o) && (o mod BLOCK_SIZE =? 0) && (o <? lvo g) && (o <? H).

Record common (n : nat) (s : cstate) : Prop := {
  co_len : length (c_thr s) = n;
  co_gen : 0 <= gen (c_g s) < 2 ^ 32;
  co_count : b_count (g_bar (c_g s)) = cnt (waitingc (gen (c_g s))) (c_thr s);
  co_lt : b_count (g_bar (c_g s)) < Z.of_nat n;
  co_intr : b_intr (g_bar (c_g s)) = false;
  co_quit : g_quit (c_g s) = false;
  co_trig : 0 <= g_trigger (c_g s) < 2 ^ 32;
  co_k : kok (c_g s) (c_m s);
  co_size : 0 <= g_size (c_g s) <= BIG }.

Record running (n : nat) (s : cstate) (R H : Z) (op tr : list event) : Prop := {
  ru_common : common n s;
  ru_trace : c_trace s = op ++ EStart (g_size (c_g s)) (c_m s) :: tr;
  ru_closed : closed tr;
  ru_thr : Forall (trun (c_g s) (jump (c_g s) op) R H) (c_thr s);
  ru_R : 0 <= R;
  ru_H : 0 <= H /\ H mod BLOCK_SIZE = 0;
  ru_cur : 0 <= g_cur (c_g s) /\ (jump (c_g s) op = false -> g_cur (c_g s) = H) /\ (jump (c_g s) op = true -> BIG <= g_cur (c_g s));
  ru_max : g_cur (c_g s) <= BIG + BLOCK_SIZE * cnt (over (gen (c_g s))) (c_thr s);
  ru_dist : forall o, delivered o op + cnt (inflight o) (c_thr s) = b2z (taken (c_g s) H o);
  ru_err : g_error (c_g s) = (0 <? failures op + cnt failing (c_thr s));
  ru_user : (c_user s = URunning /\ g_fin (c_g s) = false /\ finalizes op = 0) \/ (c_user s = UFinalizing /\ g_fin (c_g s) = true /\ finalizes op = 1);
  ru_cb : g_cb (c_g s) = true /\ g_fcb (c_g s) = g_fin (c_g s);
  ru_inner : Forall inner op;
  ru_ep : epochs_ordered (g_size (c_g s)) (c_m s) op;
  ru_zero : forall t, nth_error (c_thr s) 0 = Some t -> zero (gen (c_g s)) t }.

Definition clean (g : shared) : Prop :=
  g_cur g = 0 /\ g_error g = false /\ g_fin g = false /\ g_fcb g = false.
Record idling (n : nat) (s : cstate) : Prop := {
  id_common : common n s;
  id_thr : Forall (tidle (c_g s)) (c_thr s);
  id_zero : forall t, nth_error (c_thr s) 0 = Some t -> zero (gen (c_g s)) t;
  id_clean : clean (c_g s);
  id_user : (c_user s = UIdle /\ g_size (c_g s) = 0 /\ closed (c_trace s)) \/
            (c_user s = UStarting /\ g_cb (c_g s) = true /\ exists tr, c_trace s = EStart (g_size (c_g s)) (c_m s) :: tr /\ closed tr) }.
Definition leader (g : shared) (op : list event) (t : option thread) : Prop :=
  match t with
  | Some (CCallback _ _, _) => clean g /\ g_size g = 0
  | Some _ => g_fin g = true /\ g_fcb g = true /\ g_error g = (0 <? failures op)
  | None => False
  end.
Record ending (n : nat) (s : cstate) (size : Z) (op tr : list event) : Prop := {
  en_common : common n s;
  en_trace : c_trace s = op ++ EStart size (c_m s) :: tr;
  en_closed : closed tr;
  en_user : c_user s = UFinalizing;
  en_thr : forall i t, nth_error (c_thr s) i = Some t -> tpost (c_g s) op i t;
  en_op : op_complete size (c_m s) op (negb (0 <? failures op));
  en_leader : leader (c_g s) op (nth_error (c_thr s) 0);
  en_cur : 0 <= g_cur (c_g s) /\ lvo (c_g s) <= g_cur (c_g s) /\ g_cur (c_g s) <= BIG + BLOCK_SIZE * Z.of_nat n;
  en_dist : (g_size (c_g s) = size /\ g_cb (c_g s) = true /\ exists H, 0 <= H /\ H mod BLOCK_SIZE = 0 /\ forall o, delivered o op = b2z (taken (c_g s) H o)) \/ g_size (c_g s) = 0 }.
Inductive cinv (n : nat) (s : cstate) : Prop :=
| ci_idle : idling n s -> cinv n s
| ci_run : forall R H op tr, running n s R H op tr -> cinv n s
| ci_end : forall size op tr, ending n s size op tr -> cinv n s.
