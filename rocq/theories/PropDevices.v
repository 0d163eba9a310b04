(** Properties of the choice of the OpenCL devices: C95.

    Reading the statements: [construct ps] is what the constructor of the decompressor for host memory does with the platforms [ps]: [Done (Value (devices, d))], the devices it
    uses and the one that decompresses, or [Done (Throw err)], a cl::Error with this code.  [usable ty p] are the devices of the type [ty] (GPU or CPU) on the platform [p] that are available. *)
From Coq Require Import ZArith List Bool Lia.
From Verif Require Import CBase BitsLemmas DevicesModel.
Import ListNotations.
Open Scope Z_scope.

Definition usable (ty : Z) (p : platform) : list Z :=
  match get_devices p ty with
  | Throw _ => []
  | Value ds => map dev_id (filter (fun d => match dev_available d with Value b => b | Throw _ => false end) ds)
  end.
(** A query that works: it may say that there is no such device. *)
Definition answers (ty : Z) (p : platform) : Prop :=
  match get_devices p ty with
  | Throw err => err = CL_DEVICE_NOT_FOUND
  | Value ds => forall d, In d ds -> exists b, dev_available d = Value b
  end.

Lemma collect_ok ds : (forall d, In d ds -> exists b, dev_available d = Value b) -> forall acc,
  collect ds acc = Value (acc ++ map dev_id (filter (fun d => match dev_available d with Value b => b | Throw _ => false end) ds)).
Proof.
  induction ds as [|d ds IH]; intros A acc; cbn [collect filter map]. { now rewrite app_nil_r. }
  destruct (A d (or_introl eq_refl)) as [b E]. rewrite E. destruct b.
  - rewrite IH by (intros; apply A; now right). cbn [map]. now rewrite <- app_assoc.
  - apply IH. intros; apply A; now right.
Qed.
Lemma try_ok ty ps : (exists pre p post, ps = pre ++ p :: post /\ Forall (answers ty) (pre ++ [p]) /\ Forall (fun q => usable ty q = []) pre /\ usable ty p <> [] /\
    try_platforms ty ps [] = inl (Value (usable ty p))) \/
  (Forall (answers ty) ps /\ Forall (fun q => usable ty q = []) ps /\ try_platforms ty ps [] = inr []) \/
  (exists pre p post err, ps = pre ++ p :: post /\ Forall (answers ty) pre /\ Forall (fun q => usable ty q = []) pre /\ ~ answers ty p /\
    (get_devices p ty = Throw err \/ exists ds d, get_devices p ty = Value ds /\ In d ds /\ dev_available d = Throw err) /\
    try_platforms ty ps [] = inl (Throw err)).
Proof.
  induction ps as [|p ps IH]. { right; left. repeat constructor. }
  assert (SKIP : answers ty p -> usable ty p = [] -> try_platforms ty (p :: ps) [] = try_platforms ty ps [] ->
    (exists pre q post, p :: ps = pre ++ q :: post /\ Forall (answers ty) (pre ++ [q]) /\ Forall (fun q => usable ty q = []) pre /\ usable ty q <> [] /\
      try_platforms ty (p :: ps) [] = inl (Value (usable ty q))) \/
    (Forall (answers ty) (p :: ps) /\ Forall (fun q => usable ty q = []) (p :: ps) /\ try_platforms ty (p :: ps) [] = inr []) \/
    (exists pre q post err, p :: ps = pre ++ q :: post /\ Forall (answers ty) pre /\ Forall (fun q => usable ty q = []) pre /\ ~ answers ty q /\
      (get_devices q ty = Throw err \/ exists ds d, get_devices q ty = Value ds /\ In d ds /\ dev_available d = Throw err) /\
      try_platforms ty (p :: ps) [] = inl (Throw err))).
  { intros A U ->. destruct IH as [(pre & q & post & -> & H1 & H2 & H3 & H4)|[(H1 & H2 & H3)|(pre & q & post & err & -> & H1 & H2 & H3 & H4 & H5)]].
    - left. exists (p :: pre), q, post. cbn [app]. repeat split; auto.
    - right; left. repeat split; auto.
    - right; right. exists (p :: pre), q, post, err. cbn [app]. repeat split; auto. }
  cbn [try_platforms] in *. destruct (get_devices p ty) as [ds|err] eqn:E.
  - assert (D : (forall d, In d ds -> exists b, dev_available d = Value b) \/ exists err, (forall acc, collect ds acc = Throw err) /\ exists d, In d ds /\ dev_available d = Throw err).
    { clear. induction ds as [|d ds [IH|(err & C & x & I & X)]]; [left; intros ? []| |].
      - destruct (dev_available d) as [b|err] eqn:E; [left; intros x [<-|I]; eauto|right]. exists err. split; [intros; cbn [collect]; now rewrite E|]. exists d. split; [now left|auto].
      - right. destruct (dev_available d) as [b|e2] eqn:E.
        + exists err. split; [intros; cbn [collect]; rewrite E; destruct b; apply C|]. exists x. split; [now right|auto].
        + exists e2. split; [intros; cbn [collect]; now rewrite E|]. exists d. split; [now left|auto]. }
    destruct D as [A|(err & C & d & I & X)].
    + rewrite (collect_ok ds A []) in *. cbn [app] in *.
      assert (U : usable ty p = map dev_id (filter (fun d => match dev_available d with Value b => b | Throw _ => false end) ds)) by (unfold usable; now rewrite E).
      rewrite <- U in *. destruct (usable ty p) as [|x l] eqn:UE.
      * apply SKIP; auto. unfold answers. now rewrite E.
      * left. exists [], p, ps. cbn [app]. split; [reflexivity|]. split. { constructor; [|constructor]. unfold answers. now rewrite E. } split; [constructor|]. rewrite UE. split; [discriminate|reflexivity].
    + right; right. exists [], p, ps, err. cbn [app]. rewrite C. split; [reflexivity|]. split; [constructor|]. split; [constructor|]. split.
      { unfold answers. rewrite E. intros A. destruct (A d I) as [b B]. congruence. } split; [right; rewrite E; eauto|reflexivity].
  - destruct (Z.eqb_spec err CL_DEVICE_NOT_FOUND) as [->|NE].
    + apply SKIP; auto; unfold answers, usable; now rewrite E.
    + right; right. exists [], p, ps, err. cbn [app]. split; [reflexivity|]. split; [constructor|]. split; [constructor|]. split; [unfold answers; now rewrite E|]. split; [now left|reflexivity].
Qed.

(** If the queries work: the constructor uses all available GPUs of the first platform that has one; if no platform has one, all available CPUs of the first platform that has one; the first
    of these decompresses.  If there is neither it throws CL_DEVICE_NOT_FOUND. *)
Theorem C95_devices : forall ps, Forall (answers CL_DEVICE_TYPE_GPU) ps -> Forall (answers CL_DEVICE_TYPE_CPU) ps ->
  (exists ty pre p post d ds, ps = pre ++ p :: post /\ usable ty p = d :: ds /\ Forall (fun q => usable ty q = []) pre /\
     (ty = CL_DEVICE_TYPE_GPU \/ ty = CL_DEVICE_TYPE_CPU /\ Forall (fun q => usable CL_DEVICE_TYPE_GPU q = []) ps) /\
     construct (Value ps) = Done (Value (d :: ds, d))) \/
  (Forall (fun q => usable CL_DEVICE_TYPE_GPU q = [] /\ usable CL_DEVICE_TYPE_CPU q = []) ps /\ construct (Value ps) = Done (Throw CL_DEVICE_NOT_FOUND)).
Proof.
  intros ps AG AC. unfold construct, findDevices.
  destruct ps as [|p0 ps0]. { right. split; [constructor|reflexivity]. } set (ps := p0 :: ps0) in *. cbn [try_types].
  assert (BAD : forall ty pre p post, Forall (answers ty) ps -> ps = pre ++ p :: post -> ~ answers ty p -> False).
  { intros ty pre p post A -> N. apply N. apply Forall_app in A. destruct A as [_ A]. now inversion A. }
  destruct (try_ok CL_DEVICE_TYPE_GPU ps) as [(pre & p & post & E & _ & H2 & H3 & ->)|[(_ & HG & ->)|(pre & p & post & err & E & _ & _ & H3 & _)]].
  - left. destruct (usable CL_DEVICE_TYPE_GPU p) as [|d ds] eqn:U; [contradiction|]. exists CL_DEVICE_TYPE_GPU, pre, p, post, d, ds.
    split; [exact E|]. split; [exact U|]. split; [exact H2|]. split; [now left|]. rewrite aget_ok by (unfold lenZ; cbn [length]; lia). reflexivity.
  - destruct (try_ok CL_DEVICE_TYPE_CPU ps) as [(pre & p & post & E & _ & H2 & H3 & ->)|[(_ & HC & ->)|(pre & p & post & err & E & _ & _ & H3 & _)]].
    + left. destruct (usable CL_DEVICE_TYPE_CPU p) as [|d ds] eqn:U; [contradiction|]. exists CL_DEVICE_TYPE_CPU, pre, p, post, d, ds.
      split; [exact E|]. split; [exact U|]. split; [exact H2|]. split; [right; split; [reflexivity|exact HG]|]. rewrite aget_ok by (unfold lenZ; cbn [length]; lia). reflexivity.
    + right. split; [|reflexivity]. rewrite Forall_forall in *. auto.
    + exfalso. eauto.
  - exfalso. eauto.
Qed.
Print Assumptions C95_devices.

(** In general: the constructor never uses a device that is not available or devices of two platforms or types, never has no device, and what it throws is CL_DEVICE_NOT_FOUND or the error
    of a query. *)
Theorem C95_devices_any : forall ps, exists r, construct ps = Done r /\
  match r with
  | Value (devices, d) => exists l ty p, ps = Value l /\ In p l /\ (ty = CL_DEVICE_TYPE_GPU \/ ty = CL_DEVICE_TYPE_CPU) /\ devices = usable ty p /\ hd_error devices = Some d
  | Throw err => ps = Throw err \/ err = CL_DEVICE_NOT_FOUND \/
      exists l ty p, ps = Value l /\ In p l /\ (get_devices p ty = Throw err \/ exists ds x, get_devices p ty = Value ds /\ In x ds /\ dev_available x = Throw err)
  end.
Proof.
  intros [l|err]; unfold construct, findDevices. 2:{ eexists. split; [reflexivity|]. now left. }
  destruct l as [|p0 l0]. { eexists. split; [reflexivity|]. right; now left. } set (ps := p0 :: l0) in *. cbn [try_types].
  assert (FOUND : forall ty pre p post, ps = pre ++ p :: post -> (ty = CL_DEVICE_TYPE_GPU \/ ty = CL_DEVICE_TYPE_CPU) -> usable ty p <> [] ->
    exists r, (d <- aget (usable ty p) 0 ;; Done (Value (usable ty p, d))) = Done r /\
    match r with
    | Value (devices, d) => exists l ty p, Value ps = Value l /\ In p l /\ (ty = CL_DEVICE_TYPE_GPU \/ ty = CL_DEVICE_TYPE_CPU) /\ devices = usable ty p /\ hd_error devices = Some d
    | Throw err => False
    end).
  { intros ty pre p post E T N. destruct (usable ty p) as [|d ds] eqn:U; [contradiction|]. rewrite aget_ok by (unfold lenZ; cbn [length]; lia). eexists. split; [reflexivity|].
    exists ps, ty, p. split; [reflexivity|]. split; [rewrite E; apply in_or_app; right; now left|]. split; [exact T|]. split; [now rewrite U|reflexivity]. }
  assert (ERR : forall ty pre p post err, ps = pre ++ p :: post -> (get_devices p ty = Throw err \/ exists ds x, get_devices p ty = Value ds /\ In x ds /\ dev_available x = Throw err) ->
    exists l ty p, @Value (list platform) ps = Value l /\ In p l /\ (get_devices p ty = Throw err \/ exists ds x, get_devices p ty = Value ds /\ In x ds /\ dev_available x = Throw err)).
  { intros ty pre p post err E H. exists ps, ty, p. split; [reflexivity|]. split; [rewrite E; apply in_or_app; right; now left|exact H]. }
  destruct (try_ok CL_DEVICE_TYPE_GPU ps) as [(pre & p & post & E & _ & _ & H3 & ->)|[(_ & _ & ->)|(pre & p & post & err & E & _ & _ & _ & H4 & ->)]].
  - destruct (FOUND _ _ _ _ E (or_introl eq_refl) H3) as ([[ds d]|err] & -> & H); [|contradiction]. eexists. split; [reflexivity|exact H].
  - destruct (try_ok CL_DEVICE_TYPE_CPU ps) as [(pre & p & post & E & _ & _ & H3 & ->)|[(_ & _ & ->)|(pre & p & post & err & E & _ & _ & _ & H4 & ->)]].
    + destruct (FOUND _ _ _ _ E (or_intror eq_refl) H3) as ([[ds d]|err] & -> & H); [|contradiction]. eexists. split; [reflexivity|exact H].
    + eexists. split; [reflexivity|]. right; now left.
    + eexists. split; [reflexivity|]. right; right. eauto.
  - eexists. split; [reflexivity|]. right; right. eauto.
Qed.
Print Assumptions C95_devices_any.

(** Cases: two platforms; the first has a GPU that is not available and a CPU, the second a GPU that is not and two that are; without the second the CPU is used; an error of the first
    hides the second. *)
Definition pl (g c : result (list device)) : platform := mkPlatform (fun ty => if ty =? CL_DEVICE_TYPE_GPU then g else c).
Definition pl1 := pl (Value [mkDevice 1 (Value false)]) (Value [mkDevice 2 (Value true)]).
Definition pl2 := pl (Value [mkDevice 3 (Value false); mkDevice 4 (Value true); mkDevice 5 (Value true)]) (Throw CL_DEVICE_NOT_FOUND).
Example C95_case : Forall (answers CL_DEVICE_TYPE_GPU) [pl1; pl2] /\ Forall (answers CL_DEVICE_TYPE_CPU) [pl1; pl2] /\
  construct (Value [pl1; pl2]) = Done (Value ([4; 5], 4)) /\ construct (Value [pl1]) = Done (Value ([2], 2)) /\
  construct (Value [pl (Throw (-5)) (Value []); pl2]) = Done (Throw (-5)) /\ construct (Value [pl (Value []) (Throw (-1))]) = Done (Throw (-1)).
Proof.
  split; [|split; [|repeat split; reflexivity]];
    (repeat constructor; cbn; try reflexivity; intros d I; repeat (destruct I as [<-|I]; [eexists; reflexivity|]); destruct I).
Qed.
