(** Property theorems about data types and devices: C78. *)
Require Import String Bool List Arith Lia.
Require Import Verif.MDtype.
Import ListNotations.
Local Open Scope string_scope.

(** The kind and the width of the four types that can be combined: a promoted type is the
    float type whenever one operand is, and holds at least as many bytes as each operand. *)
Definition dtypes : list string := ["float32"; "float64"; "int32"; "int64"].
Lemma canonical_in : forall d c, canonical_dtype d = Some c -> c = d /\ In d dtypes.
Proof.
  intros d c. unfold canonical_dtype.
  destruct (String.eqb_spec d "float64") as [->|_]; [intros E; inversion E; cbn; tauto|].
  destruct (String.eqb_spec d "float32") as [->|_]; [intros E; inversion E; cbn; tauto|].
  destruct (String.eqb_spec d "int64") as [->|_]; [intros E; inversion E; cbn; tauto|].
  destruct (String.eqb_spec d "int32") as [->|_]; [intros E; inversion E; cbn; tauto|]. discriminate.
Qed.
Lemma promotable : forall a b, promote_dtypes a b <> None -> In a dtypes /\ In b dtypes.
Proof.
  intros a b H. unfold promote_dtypes in H. destruct (canonical_dtype a) as [c|] eqn:E; [|congruence]. destruct (canonical_dtype b) as [c'|] eqn:E'; [|congruence].
  split; eapply canonical_in; eassumption.
Qed.
Lemma not_in : forall d, ~ In d dtypes -> canonical_dtype d = None.
Proof. intros d H. destruct (canonical_dtype d) as [c|] eqn:E; [|reflexivity]. apply canonical_in in E. tauto. Qed.
Lemma some_eq : forall (a b : string), Some a = Some b -> b = a. Proof. intros a b E. congruence. Qed.
Ltac each H := cbn in H; repeat (destruct H as [<-|H]; [|]); try contradiction.

(** ** C78: data types combine like a semilattice. *)
Theorem C78_promotion_is_symmetric : forall a b, promote_dtypes a b = promote_dtypes b a.
Proof.
  intros a b. destruct (in_dec string_dec a dtypes) as [Ha|Ha].
  - destruct (in_dec string_dec b dtypes) as [Hb|Hb]; [each Ha; each Hb; reflexivity|].
    unfold promote_dtypes. rewrite (not_in b Hb). destruct (canonical_dtype a); reflexivity.
  - unfold promote_dtypes. rewrite (not_in a Ha). destruct (canonical_dtype b); reflexivity.
Qed.
Print Assumptions C78_promotion_is_symmetric.
Theorem C78_promotion_of_one_type : forall a, promote_dtypes a a = if in_dec string_dec a dtypes then Some a else None.
Proof.
  intros a. destruct (in_dec string_dec a dtypes) as [Ha|Ha]; [each Ha; reflexivity|].
  unfold promote_dtypes. rewrite (not_in a Ha). reflexivity.
Qed.
Print Assumptions C78_promotion_of_one_type.
Theorem C78_promotion_defined : forall a b, promote_dtypes a b <> None <-> In a dtypes /\ In b dtypes.
Proof. intros a b. split; [apply promotable|]. intros [Ha Hb]. each Ha; each Hb; discriminate. Qed.
Print Assumptions C78_promotion_defined.
Theorem C78_promotion_grouping : forall a b c,
  match promote_dtypes a b with Some x => promote_dtypes x c | None => None end =
  match promote_dtypes b c with Some y => promote_dtypes a y | None => None end.
Proof.
  intros a b c. destruct (in_dec string_dec a dtypes) as [Ha|Ha].
  - destruct (in_dec string_dec b dtypes) as [Hb|Hb].
    + destruct (in_dec string_dec c dtypes) as [Hc|Hc].
      * each Ha; each Hb; each Hc; reflexivity.
      * assert (N : forall x, promote_dtypes x c = None) by (intros x; unfold promote_dtypes; rewrite (not_in c Hc); destruct (canonical_dtype x); reflexivity).
        rewrite (N b). destruct (promote_dtypes a b); [apply N|reflexivity].
    + unfold promote_dtypes at 1 3. rewrite (not_in b Hb). destruct (canonical_dtype a); reflexivity.
  - assert (N : forall x, promote_dtypes a x = None) by (intros x; unfold promote_dtypes; rewrite (not_in a Ha); reflexivity).
    rewrite (N b). destruct (promote_dtypes b c); [symmetry; apply N|reflexivity].
Qed.
Print Assumptions C78_promotion_grouping.
(** The promoted type: a float type as soon as one operand is one, an integer type otherwise, and
    never narrower than an operand. *)
Theorem C78_promoted_type : forall a b c, promote_dtypes a b = Some c ->
  is_float_dtype c = is_float_dtype a || is_float_dtype b /\ is_int_dtype c = is_int_dtype a && is_int_dtype b /\
  exists n na nb, dtype_size c = Some n /\ dtype_size a = Some na /\ dtype_size b = Some nb /\ na <= n /\ nb <= n /\ (n = na \/ n = nb).
Proof.
  intros a b c E. destruct (promotable a b) as [Ha Hb]; [congruence|].
  each Ha; each Hb; cbv in E; apply some_eq in E; subst c; (split; [reflexivity|]); (split; [reflexivity|]); cbn; do 3 eexists; repeat (split; [reflexivity|]); lia.
Qed.
Print Assumptions C78_promoted_type.
(** Every type that has a size is a float or an integer type, and not both ... *)
Theorem C78_kinds : forall d, (dtype_size d <> None <-> is_float_dtype d = true \/ is_int_dtype d = true) /\ ~ (is_float_dtype d = true /\ is_int_dtype d = true).
Proof.
  intros d. unfold dtype_size, is_float_dtype, is_int_dtype.
  destruct (String.eqb_spec d "float32") as [->|]; [cbn; intuition congruence|]. destruct (String.eqb_spec d "float64") as [->|]; [cbn; intuition congruence|].
  destruct (String.eqb_spec d "int32") as [->|]; [cbn; intuition congruence|]. destruct (String.eqb_spec d "int64") as [->|]; [cbn; intuition congruence|].
  destruct (String.eqb_spec d "uint32") as [->|]; [cbn; intuition congruence|]. destruct (String.eqb_spec d "uint64") as [->|]; [cbn; intuition congruence|].
  cbn. intuition congruence.
Qed.
Print Assumptions C78_kinds.
(** ... but unsigned types cannot be combined with anything, not even with themselves. *)
Theorem C78_unsigned_refuted : exists d, is_int_dtype d = true /\ dtype_size d = Some 4 /\ forall x, promote_dtypes d x = None.
Proof. exists "uint32". repeat (split; [reflexivity|]). intros x. reflexivity. Qed.
Print Assumptions C78_unsigned_refuted.
Theorem C78_devices : In default_device list_devices /\ forall d, (is_valid_device d = true <-> In d list_devices) /\
  (device_info d <> None <-> In d list_devices) /\ (forall n t, device_info d = Some (n, t) -> n = d /\ t = "cpu").
Proof.
  split; [left; reflexivity|]. intros d. unfold device_info, is_valid_device, list_devices.
  destruct (String.eqb_spec d "cpu") as [->|N]; cbn; repeat split; try tauto; try congruence; intuition congruence.
Qed.
Print Assumptions C78_devices.
Example C78_nonvacuous : promote_dtypes "float32" "int64" = Some "float64" /\ promote_dtypes "int32" "int64" = Some "int64" /\
  promote_dtypes "float64" "float32" = Some "float64" /\ is_valid_device "gpu" = false.
Proof. repeat split. Qed.
(** The default types: the default float type absorbs every type that can be combined, the default
    integer type every integer type that can be combined, and no type of their kind is wider. *)
Theorem C78_defaults : is_float_dtype default_float_dtype = true /\ is_int_dtype default_int_dtype = true /\
  (forall d, In d dtypes -> promote_dtypes d default_float_dtype = Some default_float_dtype) /\
  (forall d, In d dtypes -> is_int_dtype d = true -> promote_dtypes d default_int_dtype = Some default_int_dtype) /\
  (forall d n, dtype_size d = Some n -> exists m, dtype_size default_float_dtype = Some m /\ dtype_size default_int_dtype = Some m /\ n <= m).
Proof.
  split; [reflexivity|]. split; [reflexivity|]. split; [intros d H; each H; reflexivity|]. split; [intros d H K; each H; first [reflexivity|discriminate K]|].
  intros d n E. exists 8. split; [reflexivity|]. split; [reflexivity|]. unfold dtype_size in E. destruct ((d =? "float32") || (d =? "int32") || (d =? "uint32")); [injection E as <-; lia|].
  destruct ((d =? "float64") || (d =? "int64") || (d =? "uint64")); [injection E as <-; lia|discriminate E].
Qed.
Print Assumptions C78_defaults.
Example C78_defaults_nonvacuous : promote_dtypes "int32" default_int_dtype = Some "int64" /\ promote_dtypes "int64" default_float_dtype = Some "float64" /\ dtype_size "uint32" = Some 4.
Proof. repeat split. Qed.
