(** Proofs about the program cache. *)
From Coq Require Import ZArith List Bool Lia.
From Verif Require Import SpecBits CBase BitsLemmas SpecCrc CrcModel CrcProofs CrcFacts SerialFacts OclExt OclItems CacheModel SpecCache.
Import ListNotations.
Open Scope Z_scope.

(** * Reading what was written *)
Definition parses {A} (P : list Z -> reading A) (s : list Z) (v : A) : Prop :=
  (forall t, P (s ++ t) = Got v t) /\ (forall k, (k < length s)%nat -> P (firstn k s) = Fails).
Lemma parses_bind A B (P : list Z -> reading A) (Q : A -> list Z -> reading B) s a s' b :
  parses P s a -> parses (Q a) s' b -> parses (fun bs => rbind (P bs) Q) (s ++ s') b.
Proof.
  intros [P1 P2] [Q1 Q2]. split.
  - intros t. rewrite <- app_assoc, P1. cbn [rbind]. apply Q1.
  - intros k Hk. rewrite app_length in Hk. rewrite firstn_app. destruct (Nat.lt_ge_cases k (length s)) as [L|L].
    + replace (k - length s)%nat with 0%nat by lia. cbn [firstn]. rewrite app_nil_r, P2 by auto. reflexivity.
    + rewrite (firstn_all2 s) by lia. rewrite P1. cbn [rbind]. apply Q2. lia.
Qed.
Lemma parses_ret A (v : A) : parses (Got v) [] v.
Proof. split; [reflexivity|]. cbn. lia. Qed.
Lemma parses_map A B (P : list Z -> reading A) (f : A -> B) s v : parses P s v -> parses (fun bs => rbind (P bs) (fun a rest => Got (f a) rest)) s (f v).
Proof. intros H. rewrite <- (app_nil_r s). apply (parses_bind _ _ P (fun a rest => Got (f a) rest) s v [] (f v)); auto. apply parses_ret. Qed.
Lemma parses_raw s : parses (read_raw (lenZ s)) s s.
Proof.
  split.
  - intros t. unfold read_raw. destruct (Z.leb_spec (lenZ s) (lenZ (s ++ t))) as [_|L]; [|unfold lenZ in L; rewrite app_length in L; lia].
    unfold lenZ. rewrite Nat2Z.id, firstn_app, skipn_app, Nat.sub_diag, firstn_all2, skipn_all2 by lia. cbn [firstn skipn app]. now rewrite app_nil_r.
  - intros k Hk. unfold read_raw. destruct (Z.leb_spec (lenZ s) (lenZ (firstn k s))) as [L|_]; [|reflexivity]. unfold lenZ in L. rewrite firstn_length in L. lia.
Qed.
Lemma parses_int e n v : 0 <= v < 2 ^ Z.of_nat (8 * n) -> parses (read_int e (Z.of_nat n)) (native_bytes e n v) v.
Proof.
  intros H. unfold read_int. replace v with (native_val e (native_bytes e n v)) at 2 by (apply native_val_bytes; auto).
  apply (parses_map _ _ (read_raw (Z.of_nat n)) (native_val e)). replace (Z.of_nat n) with (lenZ (native_bytes e n v)) by (unfold lenZ; now rewrite native_bytes_length). apply parses_raw.
Qed.
Lemma parses_blob e alloc b : string_ok alloc b -> parses (read_blob e alloc) (blob e b) b.
Proof.
  intros (B & L & A). unfold read_blob, blob. apply (parses_bind _ _ (read_int e 8) (fun n rest => if alloc n then read_raw n rest else Raises) _ (lenZ b)).
  - apply (parses_int e 8). change (2 ^ Z.of_nat (8 * 8)) with (2 ^ 64). unfold lenZ in *. lia.
  - rewrite A. apply parses_raw.
Qed.
Lemma blob_length e b : (length (blob e b) >= 8)%nat.
Proof. unfold blob. rewrite app_length, native_bytes_length. lia. Qed.
Definition blobs (e : endian) (l : list (list Z)) : list Z := concat (map (blob e) l).
Lemma blobs_all e alloc l : Forall (string_ok alloc) l -> forall fuel t, (length l <= fuel)%nat -> read_blobs fuel e alloc (lenZ l) (blobs e l ++ t) = Got l t.
Proof.
  induction 1 as [|b l B _ IH]; intros fuel t Hf.
  - destruct fuel; reflexivity.
  - cbn [length] in Hf. destruct fuel as [|fuel]; [lia|]. cbn [read_blobs]. destruct (Z.gtb_spec (lenZ (b :: l)) 0) as [_|L]; [|unfold lenZ in L; cbn [length] in L; lia].
    unfold blobs. cbn [map concat]. rewrite <- app_assoc. rewrite (proj1 (parses_blob e alloc b B)). cbn [rbind]. replace (lenZ (b :: l) - 1) with (lenZ l) by (unfold lenZ; cbn [length]; lia).
    fold (blobs e l). rewrite IH by lia. reflexivity.
Qed.
Lemma blobs_prefix e alloc l : Forall (string_ok alloc) l -> forall fuel k, (k < length (blobs e l))%nat -> (fuel > k)%nat -> read_blobs fuel e alloc (lenZ l) (firstn k (blobs e l)) = Fails.
Proof.
  induction 1 as [|b l B _ IH]; intros fuel k Hk Hf.
  - cbn in Hk. lia.
  - destruct fuel as [|fuel]; [lia|]. cbn [read_blobs]. destruct (Z.gtb_spec (lenZ (b :: l)) 0) as [_|L]; [|unfold lenZ in L; cbn [length] in L; lia].
    unfold blobs in *. cbn [map concat] in *. fold (blobs e l) in *. rewrite app_length in Hk. rewrite firstn_app. destruct (parses_blob e alloc b B) as [P1 P2]. pose proof (blob_length e b).
    destruct (Nat.lt_ge_cases k (length (blob e b))) as [L|L].
    + replace (k - length (blob e b))%nat with 0%nat by lia. cbn [firstn]. rewrite app_nil_r, P2 by auto. reflexivity.
    + rewrite (firstn_all2 (blob e b)) by lia. rewrite P1. cbn [rbind]. replace (lenZ (b :: l) - 1) with (lenZ l) by (unfold lenZ; cbn [length]; lia). rewrite IH by lia. reflexivity.
Qed.
Lemma blobs_count e l : (8 * length l <= length (blobs e l))%nat.
Proof. induction l as [|b l IH]; cbn [length blobs map concat]; [unfold blobs; cbn; lia|]. unfold blobs in *. cbn [map concat]. rewrite app_length. pose proof (blob_length e b). lia. Qed.
Lemma parses_blobs e alloc l : Forall (string_ok alloc) l -> parses (fun bs => read_blobs (S (length bs)) e alloc (lenZ l) bs) (blobs e l) l.
Proof.
  intros F. split.
  - intros t. apply blobs_all; auto. rewrite app_length. pose proof (blobs_count e l). lia.
  - intros k Hk. apply blobs_prefix; auto. rewrite firstn_length. lia.
Qed.
Definition meta_ok (alloc : Z -> bool) (m : metadata) : Prop :=
  0 <= m_hash m < 2 ^ 32 /\ 0 <= m_size m < 2 ^ 64 /\ 0 <= m_stride m < 2 ^ 64 /\ 0 <= m_format m < 2 ^ 32 /\ Forall (string_ok alloc) (m_names m) /\ lenZ (m_names m) < 2 ^ 64.
Lemma parses_meta e alloc m : meta_ok alloc m -> parses (readMetadata e alloc) (writeMetadata e m) m.
Proof.
  intros (H1 & H2 & H3 & H4 & H5 & H6). unfold readMetadata, writeMetadata. change (2 ^ 64) with (2 ^ Z.of_nat (8 * 8)) in *. change (2 ^ 32) with (2 ^ Z.of_nat (8 * 4)) in *.
  eapply (parses_bind _ _ (read_int e 8)); [apply (parses_int e 8); auto|]. eapply (parses_bind _ _ (read_int e 8)); [apply (parses_int e 8); auto|].
  eapply (parses_bind _ _ (read_int e 4)); [apply (parses_int e 4); auto|]. eapply (parses_bind _ _ (read_int e 4)); [apply (parses_int e 4); auto|].
  eapply (parses_bind _ _ (read_int e 8)); [apply (parses_int e 8); split; [unfold lenZ; lia|auto]|].
  pose proof (parses_map _ _ _ (fun names => mkMeta (m_hash m) (m_size m) (m_stride m) (m_format m) names) _ _ (parses_blobs e alloc (m_names m) H5)) as P.
  cbv beta in P. destruct m. exact P.
Qed.
Lemma find_same e alloc m bins : meta_ok alloc m -> Forall (string_ok alloc) bins -> length bins = length (m_names m) ->
  find e alloc m (Some (written e m bins)) = Got bins [] /\ forall k, (k < length (written e m bins))%nat -> find e alloc m (Some (firstn k (written e m bins))) = Fails.
Proof.
  intros M B L. assert (P : parses (fun bs => rbind (readMetadata e alloc bs) (fun disk rest => if meta_eq_dec m disk then read_blobs (S (length rest)) e alloc (lenZ (m_names m)) rest else Got [] rest)) (written e m bins) bins).
  { apply (parses_bind _ _ (readMetadata e alloc) _ _ m); [apply parses_meta; auto|]. destruct (meta_eq_dec m m); [|congruence]. replace (lenZ (m_names m)) with (lenZ bins) by (unfold lenZ; lia). apply parses_blobs; auto. }
  destruct P as [P1 P2]. split; [|apply P2]. unfold find. rewrite <- (app_nil_r (written e m bins)). apply P1.
Qed.
Lemma find_other e alloc m m' bins k : meta_ok alloc m -> m' <> m ->
  find e alloc m' (Some (firstn k (written e m bins))) = Fails \/ exists rest, find e alloc m' (Some (firstn k (written e m bins))) = Got [] rest.
Proof.
  intros M NE. destruct (parses_meta e alloc m M) as [P1 P2]. unfold find, written. rewrite firstn_app. destruct (Nat.lt_ge_cases k (length (writeMetadata e m))) as [L|L].
  - left. replace (k - length (writeMetadata e m))%nat with 0%nat by lia. cbn [firstn]. rewrite app_nil_r, P2 by auto. reflexivity.
  - right. rewrite firstn_all2 by lia. rewrite P1. cbn [rbind]. destruct (meta_eq_dec m' m); [contradiction|]. eauto.
Qed.
(** Reading ends, whatever the file contains. *)
Lemma raw_ends n bs : read_raw n bs <> NoEnd.
Proof. unfold read_raw. destruct (n <=? lenZ bs); discriminate. Qed.
Lemma int_ends e n bs : read_int e n bs <> NoEnd.
Proof. unfold read_int. pose proof (raw_ends n bs). destruct (read_raw n bs); cbn [rbind]; congruence. Qed.
Lemma raw_rest n bs a rest : 0 <= n -> read_raw n bs = Got a rest -> (length rest + Z.to_nat n = length bs)%nat.
Proof.
  unfold read_raw. intros H. destruct (Z.leb_spec n (lenZ bs)); [|discriminate]. intros E. assert (rest = skipn (Z.to_nat n) bs) by congruence. subst rest. rewrite skipn_length. unfold lenZ in *. lia.
Qed.
Lemma blob_ends e alloc bs : read_blob e alloc bs <> NoEnd.
Proof.
  unfold read_blob. pose proof (int_ends e 8 bs). destruct (read_int e 8 bs); cbn [rbind]; try congruence. destruct (alloc a); [apply raw_ends|discriminate].
Qed.
Lemma blob_rest e alloc bs a rest : read_blob e alloc bs = Got a rest -> (length rest < length bs)%nat.
Proof.
  unfold read_blob, read_int. destruct (read_raw 8 bs) as [l r| | |] eqn:E; cbn [rbind]; try discriminate. pose proof (raw_rest 8 bs l r ltac:(lia) E) as L. change (Z.to_nat 8) with 8%nat in L.
  destruct (alloc (native_val e l)); [|discriminate]. intros E2. unfold read_raw in E2. destruct (native_val e l <=? lenZ r); [|discriminate]. assert (rest = skipn (Z.to_nat (native_val e l)) r) by congruence. subst rest. rewrite skipn_length. lia.
Qed.
Lemma blobs_end e alloc : forall fuel n bs, (fuel > length bs)%nat -> read_blobs fuel e alloc n bs <> NoEnd.
Proof.
  induction fuel as [|fuel IH]; intros n bs Hf; [lia|]. cbn [read_blobs]. destruct (n >? 0); [|discriminate]. pose proof (blob_ends e alloc bs). destruct (read_blob e alloc bs) as [b rest| | |] eqn:E; cbn [rbind]; try congruence.
  apply blob_rest in E. specialize (IH (n - 1) rest ltac:(lia)). destruct (read_blobs fuel e alloc (n - 1) rest); cbn [rbind]; congruence.
Qed.
Lemma find_ends e alloc m file : find e alloc m file <> NoEnd.
Proof.
  destruct file as [bs|]; [|discriminate]. unfold find, readMetadata.
  assert (I : forall k n l, read_int e n l = k -> k <> NoEnd) by (intros; subst; apply int_ends).
  destruct (read_int e 8 bs) as [a1 r1| | |] eqn:E1; cbn [rbind]; try discriminate; [|exfalso; exact (I _ _ _ E1 eq_refl)].
  destruct (read_int e 8 r1) as [a2 r2| | |] eqn:E2; cbn [rbind]; try discriminate; [|exfalso; exact (I _ _ _ E2 eq_refl)].
  destruct (read_int e 4 r2) as [a3 r3| | |] eqn:E3; cbn [rbind]; try discriminate; [|exfalso; exact (I _ _ _ E3 eq_refl)].
  destruct (read_int e 4 r3) as [a4 r4| | |] eqn:E4; cbn [rbind]; try discriminate; [|exfalso; exact (I _ _ _ E4 eq_refl)].
  destruct (read_int e 8 r4) as [a5 r5| | |] eqn:E5; cbn [rbind]; try discriminate; [|exfalso; exact (I _ _ _ E5 eq_refl)].
  pose proof (blobs_end e alloc (S (length r5)) a5 r5 ltac:(lia)) as NE. destruct (read_blobs (S (length r5)) e alloc a5 r5) as [names r6| | |]; cbn [rbind]; try congruence.
  destruct (meta_eq_dec m _); [apply blobs_end; lia|discriminate].
Qed.

(** * Building *)
Definition meta_of (c : config) : metadata := mkMeta (crc32 (g_source c)) (g_size c) (g_stride c) (g_format c) (g_devices c).
Lemma crc32_range s : is_bytes s -> 0 <= crc32 s < 2 ^ 32.
Proof.
  intros B. destruct (c12_range LE 0 s B) as (c & E & R). rewrite c12 in E by (auto; unfold lenZ; lia). unfold lenZ in E. rewrite Nat2Z.id, firstn_all in E. assert (crc32 s = c) as -> by congruence. exact R.
Qed.
Lemma crc_all e s : is_bytes s -> crc32_be e 0 0 s (lenZ s) = Done (crc32 s).
Proof. intros B. rewrite c12 by (auto; unfold lenZ; lia). unfold lenZ. now rewrite Nat2Z.id, firstn_all. Qed.
Section Build.
Variables (e : endian) (alloc : Z -> bool) (compile : config -> option (list (list Z))) (loads : config -> list (list Z) -> bool).
Lemma meta_of_ok c : config_ok alloc compile c -> meta_ok alloc (meta_of c).
Proof.
  intros (B & H1 & H2 & H3 & H4 & H5 & _). unfold meta_ok, meta_of. cbn. repeat split; auto; try lia; apply crc32_range; auto.
Qed.
(** What the file may be after the runs of [h]. *)
Definition file_of (cs : list config) (file : option (list Z)) : Prop :=
  file = None \/ exists c bins k, In c cs /\ compile c = Some bins /\ file = Some (firstn k (written e (meta_of c) bins)).
Lemma build_step cs c w file : Forall (config_ok alloc compile) (c :: cs) -> hashes_differ (c :: cs) -> file_of cs file ->
  exists r file', buildProgram e alloc compile loads c w file = Done (r, file') /\ file_of (c :: cs) file' /\
    match r with
    | Some (Program bins) => compile c = Some bins
    | Some Throws => compile c = None \/ write_raises w
    | None => exists k, w = Dies k
    end.
Proof.
  intros OK HD F. pose proof (Forall_inv OK) as OKc. pose proof (meta_of_ok c OKc) as Mc.
  assert (F' : file_of (c :: cs) file) by (destruct F as [F|(d & b & k & H & F)]; [left; auto|right; exists d, b, k; split; [right; auto|auto]]).
  unfold buildProgram. rewrite crc_all by apply OKc. rewrite bind_done. fold (meta_of c).
  assert (FS : exists r file', (match compile c with None => Done (Some Throws, file) | Some bins => match w with Writes => Done (Some (Program bins), Some (written e (meta_of c) bins)) | Unwritable => Done (Some Throws, file)
      | Full k raises => Done (Some (if raises then Throws else Program bins), Some (firstn k (written e (meta_of c) bins))) | Dies k => Done (None, Some (firstn k (written e (meta_of c) bins))) end end) = Done (r, file') /\ file_of (c :: cs) file' /\
      match r with Some (Program bins) => compile c = Some bins | Some Throws => compile c = None \/ write_raises w | None => exists k, w = Dies k end).
  { destruct (compile c) as [bins|] eqn:EC; [|eexists _, _; split; [reflexivity|]; split; auto].
    assert (FF : forall k, file_of (c :: cs) (Some (firstn k (written e (meta_of c) bins)))) by (intros k; right; exists c, bins, k; split; [left; auto|auto]).
    destruct w as [| |k b|k]; eexists _, _; (split; [reflexivity|]).
    - split; auto. specialize (FF (length (written e (meta_of c) bins))). now rewrite firstn_all in FF.
    - split; auto. right. left. reflexivity.
    - split; auto. destruct b; auto. right. right. eauto.
    - split; eauto. }
  destruct F as [->|(d & db & k & Hd & Ed & ->)]; [exact FS|].
  pose proof (Forall_inv_tail OK) as OKs. pose proof (proj1 (Forall_forall _ _) OKs _ Hd) as OKd. pose proof (meta_of_ok d OKd) as Md.
  destruct (meta_eq_dec (meta_of c) (meta_of d)) as [EM|NM].
  - assert (c = d).
    { destruct c as [s1 z1 t1 f1 n1], d as [s2 z2 t2 f2 n2]. pose proof (f_equal m_hash EM) as ES. pose proof (f_equal m_size EM) as E2. pose proof (f_equal m_stride EM) as E3. pose proof (f_equal m_format EM) as E4. pose proof (f_equal m_names EM) as E5. unfold meta_of in ES, E2, E3, E4, E5. cbn [m_hash m_size m_stride m_format m_names g_source g_size g_stride g_format g_devices] in ES, E2, E3, E4, E5. subst z2 t2 f2 n2.
      assert (s1 = s2) as -> by (apply (HD (mkConfig s1 z1 t1 f1 n1) (mkConfig s2 z1 t1 f1 n1)); auto; [left|right]; auto). reflexivity. }
    subst d. destruct OKd as (_ & _ & _ & _ & _ & ND & OKb). destruct (OKb _ Ed) as [LB SB]. destruct (find_same e alloc (meta_of c) db Md SB LB) as [FA FP].
    destruct (Nat.lt_ge_cases k (length (written e (meta_of c) db))) as [L|L]; [rewrite FP by auto; exact FS|]. rewrite firstn_all2 in * by lia. rewrite FA.
    destruct db as [|b0 db]; [exact FS|]. destruct (loads c (b0 :: db)); [|exact FS]. eexists _, _. split; [reflexivity|]. split; [exact F'|exact Ed].
  - destruct (find_other e alloc (meta_of d) (meta_of c) db k Md NM) as [->|[rest ->]]; exact FS.
Qed.
Lemma used_snoc h x : used (h ++ [x]) = used h ++ [fst (fst x)].
Proof. unfold used. now rewrite map_app. Qed.
Lemma file_of_incl cs ds file : (forall c, In c cs -> In c ds) -> file_of cs file -> file_of ds file.
Proof. intros I [->|(c & b & k & H & E)]; [left; auto|right; exists c, b, k; auto]. Qed.
Theorem runs_ok h file : runs e alloc compile loads h file -> Forall (config_ok alloc compile) (used h) -> hashes_differ (used h) ->
  file_of (used h) file /\ forall c w r, In (c, w, r) h ->
    match r with
    | Some (Program bins) => compile c = Some bins
    | Some Throws => compile c = None \/ write_raises w
    | None => exists k, w = Dies k
    end.
Proof.
  induction 1 as [|h file c w r file' H IH E]; intros OK HD.
  - split; [left; reflexivity|intros ? ? ? []].
  - rewrite used_snoc in OK, HD |- *. cbn [fst] in *. apply Forall_app in OK. destruct OK as [OK1 OK2].
    assert (HD1 : hashes_differ (used h)) by (intros x y Hx Hy; apply HD; apply in_or_app; auto). destruct (IH OK1 HD1) as [F R].
    destruct (build_step (used h) c w file) as (r0 & f0 & E0 & F0 & R0); auto.
    + constructor; auto. now inversion OK2.
    + intros x y Hx Hy. apply HD; apply in_or_app; destruct Hx, Hy; subst; auto; right; left; auto.
    + rewrite E0 in E. assert (r0 = r /\ f0 = file') as [-> ->] by (split; congruence). split.
      * eapply file_of_incl; [|exact F0]. intros x [<-|Hx]; apply in_or_app; [right; left|left]; auto.
      * intros x y z Hz. apply in_app_or in Hz. destruct Hz as [Hz|[Hz|[]]]; [eapply R; eauto|]. assert (c = x /\ w = y /\ r = z) as (-> & -> & ->) by (repeat split; congruence). exact R0.
Qed.
(** Runs can go on from every state: nothing is undefined. *)
Theorem build_defined c w file : is_bytes (g_source c) -> exists r file', buildProgram e alloc compile loads c w file = Done (r, file').
Proof.
  intros B. unfold buildProgram. rewrite crc_all by auto. rewrite bind_done. pose proof (find_ends e alloc (mkMeta (crc32 (g_source c)) (g_size c) (g_stride c) (g_format c) (g_devices c)) file) as NE.
  assert (FS : forall m, exists r file', (match compile c with None => Done (Some Throws, file) | Some bins => match w with Writes => Done (Some (Program bins), Some (written e m bins)) | Unwritable => Done (Some Throws, file)
      | Full k raises => Done (Some (if raises then Throws else Program bins), Some (firstn k (written e m bins))) | Dies k => Done (None, Some (firstn k (written e m bins))) end end) = Done (r, file')).
  { intros m. destruct (compile c); [|eauto]. destruct w; eauto. }
  destruct (find e alloc _ file) as [[|b bs] rest| | |]; try congruence; try apply FS; eauto. destruct (loads c (b :: bs)); [eauto|apply FS].
Qed.
(** After a run that could write the file, the same configuration is built from the cache. *)
Theorem cache_hit c bins file file' : config_ok alloc compile c -> (forall b, compile c = Some b -> loads c b = true) ->
  buildProgram e alloc compile loads c Writes file = Done (Some (Program bins), file') ->
  forall w compile', buildProgram e alloc compile' loads c w file' = Done (Some (Program bins), file').
Proof.
  intros OK LD E w compile'. unfold buildProgram in *. rewrite crc_all in * by apply OK. rewrite bind_done in *. fold (meta_of c) in *.
  assert (FS : (match compile c with None => Done (Some Throws, file) | Some bins => Done (Some (Program bins), Some (written e (meta_of c) bins)) end) = Done (Some (Program bins), file') ->
    find e alloc (meta_of c) file' = Got bins [] /\ bins <> [] /\ loads c bins = true).
  { clear E. destruct (compile c) as [b|] eqn:EC; [|discriminate]. intros E. assert (b = bins /\ Some (written e (meta_of c) b) = file') as [-> <-] by (split; congruence).
    pose proof (meta_of_ok c OK) as M. destruct OK as (_ & _ & _ & _ & _ & ND & OKb). destruct (OKb _ EC) as [LB SB]. destruct (find_same e alloc (meta_of c) bins M SB LB) as [-> _].
    split; auto. split; [intros ->; cbn in LB; unfold lenZ in ND; lia|auto]. }
  assert (G : find e alloc (meta_of c) file' = Got bins [] /\ bins <> [] /\ loads c bins = true -> match find e alloc (meta_of c) file' with
      | Got [] _ | Fails => match compile' c with None => Done (Some Throws, file') | Some bins => match w with Writes => Done (Some (Program bins), Some (written e (meta_of c) bins)) | Unwritable => Done (Some Throws, file')
        | Full k raises => Done (Some (if raises then Throws else Program bins), Some (firstn k (written e (meta_of c) bins))) | Dies k => Done (None, Some (firstn k (written e (meta_of c) bins))) end end
      | Got ((_ :: _) as bins0) _ => if loads c bins0 then Done (Some (Program bins0), file') else match compile' c with None => Done (Some Throws, file') | Some bins => match w with Writes => Done (Some (Program bins), Some (written e (meta_of c) bins)) | Unwritable => Done (Some Throws, file')
        | Full k raises => Done (Some (if raises then Throws else Program bins), Some (firstn k (written e (meta_of c) bins))) | Dies k => Done (None, Some (firstn k (written e (meta_of c) bins))) end end
      | Raises => Done (Some Throws, file') | NoEnd => NoFuel end = Done (Some (Program bins), file')).
  { intros (-> & NB & L). destruct bins; [congruence|]. cbv iota beta. now rewrite L. }
  destruct (find e alloc (meta_of c) file) as [[|b bs] rest| | |] eqn:EF; try discriminate; [apply G, FS, E| |apply G, FS, E].
  destruct (loads c (b :: bs)) eqn:EL; [|apply G, FS, E]. assert (bins = b :: bs /\ file = file') as [-> <-] by (split; congruence). rewrite EF, EL. reflexivity.
Qed.
End Build.
