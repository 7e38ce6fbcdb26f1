(** * Property theorems: C01 and C02 (data types). *)
From Coq Require Import ZArith Bool List String.
From Verif Require Import PyVal PyValFacts TypeDict TypeDictFacts.
Import ListNotations.
Local Open Scope string_scope.

(** C01: a type created by [set_data_type] accepts exactly the documented
    values, whatever the date parser does. *)
Theorem C01_valid_data_iff_documented : forall parses a d v,
  safe_creator a = Some d ->
  (valid_data parses d v = true <-> documented parses a v).
Proof. exact valid_data_documented. Qed.
Print Assumptions C01_valid_data_iff_documented.

(** C01: the implicit type of untyped primary key fields. *)
Theorem C01_untyped_key_fields : forall parses d v,
  safe_creator nonnull_args = Some d ->
  (valid_data parses d v = true <-> (exists n, v = VNum n) \/ (exists s, v = VStr s)).
Proof. exact nonnull_valid. Qed.
Print Assumptions C01_untyped_key_fields.

(** C02: which calls are accepted. *)
Theorem C02_accepted_calls : forall a, (exists d, safe_creator a = Some d) <-> sensible a.
Proof. exact safe_creator_accepts. Qed.
Print Assumptions C02_accepted_calls.

(** C02: a stored type, unpacked and passed again, is stored unchanged. *)
Theorem C02_stored_types_stable : forall a d,
  safe_creator a = Some d -> safe_creator (args_of d) = Some d.
Proof. exact safe_creator_idem. Qed.
Print Assumptions C02_stored_types_stable.

Theorem C02_min_max_ordered : forall a d,
  safe_creator a = Some d -> dmin d = dmax d \/ below (dmin d) (dmax d).
Proof. exact safe_creator_minmax. Qed.
Print Assumptions C02_min_max_ordered.

Theorem C02_datetime_ignores_rest : forall a b,
  a_datetime a = true -> a_datetime b = true -> a_nullable a = a_nullable b ->
  safe_creator a = safe_creator b.
Proof. exact safe_creator_datetime_ignores. Qed.
Print Assumptions C02_datetime_ignores_rest.

Theorem C02_no_number_ignores_bounds : forall a b,
  a_number a = false -> a_number b = false -> a_datetime a = a_datetime b ->
  a_strs a = a_strs b -> a_nullable a = a_nullable b ->
  safe_creator a = safe_creator b.
Proof. exact safe_creator_nonumber_ignores. Qed.
Print Assumptions C02_no_number_ignores_bounds.

(** Non-vacuity: a type "integers in (2, inf], or 'a', nullable". *)
Definition ex_args : dtargs :=
  mkArgs true false true (VNum (of_int 2)) (VNum PInf) true (AList ["a"]) true false.

Example C01_ex : exists d, safe_creator ex_args = Some d /\
  (forall parses,
   valid_data parses d (VNum (of_int 3)) = true /\
   valid_data parses d (VNum PInf) = true /\
   valid_data parses d VNone = true /\
   valid_data parses d (VStr "a") = true /\
   valid_data parses d (VNum (of_int 2)) = false /\
   valid_data parses d (VNum (Fin (3 * one_units + 1)%Z)) = false /\
   valid_data parses d (VBool true) = false /\
   valid_data parses d (VStr "b") = false).
Proof.
  eexists. split; [reflexivity |]. intros parses. vm_compute. repeat split; reflexivity.
Qed.

Example C01_untyped_ex : exists d, safe_creator nonnull_args = Some d /\
  valid_data (fun _ => true) d (VBool true) = false /\
  valid_data (fun _ => false) d (VStr "") = true.
Proof. eexists. split; [reflexivity |]. vm_compute. split; reflexivity. Qed.

Example C02_ex : exists d, safe_creator ex_args = Some d /\ safe_creator (args_of d) = Some d
  /\ sensible ex_args.
Proof.
  eexists. split; [reflexivity |]. split; [reflexivity |].
  apply C02_accepted_calls. eexists. reflexivity.
Qed.

Example C02_ignores_ex :
  safe_creator (mkArgs false true false (VStr "x") VNone true AStar false false) =
  safe_creator (mkArgs false false true VNaN VNaN false AStar false false) /\
  safe_creator (mkArgs false true false (VStr "x") VNone true ABad true true) =
  safe_creator (mkArgs true false true VNaN VNaN false AStar true true).
Proof. split; reflexivity. Qed.

Example C02_rejected_ex :
  safe_creator (mkArgs true true true (VNum PInf) (VNum (of_int 1)) false AStar false false) = None.
Proof. reflexivity. Qed.
