(** * Property theorems: C19 - C24 (the factory as a state machine). *)
From Coq Require Import ZArith Bool List String Permutation.
From Verif Require Import PyVal PyDict PyDictFacts PyStr TypeDict Data FindTypes FK Factory FactoryFacts FactoryMore
  FactoryClone FactoryEdit FactoryColumns FactoryRename FactoryHist FactoryWitness.
Import ListNotations.
Local Open Scope string_scope.
Local Open Scope list_scope.

(** C19: the schema round trip, for factories whose parameter names are
    strings and whose foreign keys all map some field.  [tables] is the order
    in which the schema dictionary happens to list the tables. *)
Theorem C19_schema_round_trip : forall parses f tables,
  reachable parses f -> string_params f -> no_empty_fk f -> Permutation (f_decl f) tables ->
  exists g, create parses (schema_in_order f tables) = Some g /\
    (forall t, decl_of (f_decl g) t = decl_of (f_decl f) t) /\
    f_fks g = f_fks f /\ f_params g = f_params f /\
    (forall t x, shown_default g t x = shown_default f t x /\ shown_type g t x = shown_type f t x /\
                 shown_tip g t x = shown_tip f t x) /\
    same_settings f g.
Proof. exact roundtrip_ok. Qed.
Print Assumptions C19_schema_round_trip.

(** Both provisos are needed. *)
Theorem C19_non_string_parameter_refuted : exists f, reachable np f /\ no_empty_fk f /\
  create np (schema_in_order f (f_decl f)) = None.
Proof. exact w_param_refutes. Qed.
Print Assumptions C19_non_string_parameter_refuted.

Theorem C19_empty_implied_key_refuted : exists f, reachable np f /\ string_params f /\
  create np (schema_in_order f (f_decl f)) = None.
Proof. exact w_empty_refutes. Qed.
Print Assumptions C19_empty_implied_key_refuted.

(** C20: cloning a subset of the tables. *)
Theorem C20_restricted_clone : forall parses f tables keep,
  reachable parses f -> clonable f -> no_generic f -> Permutation (f_decl f) tables ->
  keep <> [] -> (forall t, In t keep -> in_tables f t) -> (forall t, In t (f_gens f) -> In t keep) ->
  exists g, clone parses f tables (Some keep) = Some g /\
    (forall t, In t keep -> decl_of (f_decl g) t = decl_of (f_decl f) t /\
       (forall x, shown_default g t x = shown_default f t x /\ shown_type g t x = shown_type f t x /\
                  shown_tip g t x = shown_tip f t x) /\
       (forall n, shown_pred g t n = shown_pred f t n)) /\
    (forall t, ~ In t keep -> decl_of (f_decl g) t = None /\
       (forall x, shown_default g t x = None /\ shown_type g t x = None /\ shown_tip g t x = None) /\
       (forall n, shown_pred g t n = None)) /\
    (forall k, In k (f_fks g) <-> In k (f_fks f) /\ In (fk_native k) keep /\ In (fk_foreign k) keep) /\
    (In "parameters" keep -> f_params g = f_params f) /\ (~ In "parameters" keep -> f_params g = []) /\
    f_gens g = f_gens f /\ f_links g = f_links f /\ same_settings f g.
Proof. intros parses f tables keep H. apply clone_ok. now apply reachable_inv. Qed.
Print Assumptions C20_restricted_clone.

(** Without restrictions generic tables are allowed as well. *)
Theorem C20_full_clone : forall parses f tables,
  reachable parses f -> clonable f -> Permutation (f_decl f) tables ->
  exists g, clone parses f tables None = Some g /\
    (forall t, decl_of (f_decl g) t = decl_of (f_decl f) t) /\
    (forall t x, shown_default g t x = shown_default f t x /\ shown_type g t x = shown_type f t x /\
                 shown_tip g t x = shown_tip f t x) /\
    (forall k, In k (f_fks g) <-> In k (f_fks f)) /\ same_rest f g.
Proof. intros parses f tables H. apply clone_all_ok. now apply reachable_inv. Qed.
Print Assumptions C20_full_clone.

(** As stated the property is false, in three ways. *)
Theorem C20_clone_with_generic_table_refuted : exists f keep,
  reachable np f /\ clonable f /\ keep <> [] /\ (forall t, In t keep -> in_tables f t) /\ f_gens f = [] /\
  clone np f (f_decl f) (Some keep) = None.
Proof. exact w_generic_refutes. Qed.
Print Assumptions C20_clone_with_generic_table_refuted.

Theorem C20_clone_without_generator_refuted : exists f keep,
  reachable np f /\ clonable f /\ no_generic f /\ keep <> [] /\ (forall t, In t keep -> in_tables f t) /\
  clone np f (f_decl f) (Some keep) = None.
Proof. exact w_gens_refutes. Qed.
Print Assumptions C20_clone_without_generator_refuted.

Theorem C20_clone_predicate_on_generator_refuted : exists f,
  reachable np f /\ no_generic f /\ string_params f /\ no_empty_fk f /\ clone np f (f_decl f) None = None.
Proof. exact w_predgen_refutes. Qed.
Print Assumptions C20_clone_predicate_on_generator_refuted.

(** C21: column edits change that column and nothing else. *)
Theorem C21_add_column : forall parses f tables t x (kf : bool) pos ts i,
  reachable parses f -> clonable f -> no_generic f -> Permutation (f_decl f) tables ->
  decl_of (f_decl f) t = Some (Fields ts) -> ~ In (lower x) (map lower (tpk ts ++ tdf ts)) ->
  (i = match pos with Some i => i | None => List.length (if kf then tpk ts else tdf ts) end) ->
  (i <= List.length (if kf then tpk ts else tdf ts))%nat ->
  (kf = true -> ~ In t (f_gens f)) -> (t = "parameters" -> f_params f = []) ->
  exists g, clone_add_column parses f tables t x kf pos = Some g /\ reachable parses g /\ f_used g = false /\
    decl_of (f_decl g) t = Some (Fields (with_field kf i x ts)) /\
    (forall t', t' <> t -> decl_of (f_decl g) t' = decl_of (f_decl f) t') /\
    (forall t' x', (t', x') <> (t, x) -> shown_default g t' x' = shown_default f t' x') /\
    shown_default g t x = (if kf then None else Some (VNum (of_int 0))) /\
    (forall t' x', shown_type g t' x' = shown_type f t' x' /\ shown_tip g t' x' = shown_tip f t' x') /\
    (forall k, In k (f_fks g) <-> In k (f_fks f)) /\ same_rest f g.
Proof. intros parses f tables t x kf pos ts i H. apply add_ok. now apply reachable_inv. Qed.
Print Assumptions C21_add_column.

Theorem C21_remove_column : forall parses f tables t x ts,
  reachable parses f -> clonable f -> no_generic f -> Permutation (f_decl f) tables ->
  decl_of (f_decl f) t = Some (Fields ts) -> In x (tpk ts ++ tdf ts) ->
  (exists z, In z (tpk ts ++ tdf ts) /\ z <> x) -> (t = "parameters" -> f_params f = []) ->
  exists g, clone_remove_column parses f tables t x = Some g /\ reachable parses g /\ f_used g = false /\
    decl_of (f_decl g) t = Some (Fields (mkT (remove string_dec x (tpk ts)) (remove string_dec x (tdf ts)))) /\
    (forall t', t' <> t -> decl_of (f_decl g) t' = decl_of (f_decl f) t') /\
    (forall t' x', (t', x') <> (t, x) -> shown_default g t' x' = shown_default f t' x' /\
       shown_type g t' x' = shown_type f t' x' /\ shown_tip g t' x' = shown_tip f t' x') /\
    shown_default g t x = None /\ shown_type g t x = None /\ shown_tip g t x = None /\
    (forall k, In k (f_fks g) <-> In k (f_fks f) /\ ~ fk_uses k t x) /\ same_rest f g.
Proof. intros parses f tables t x ts H. apply remove_ok. now apply reachable_inv. Qed.
Print Assumptions C21_remove_column.

Theorem C21_rename_column : forall parses f tables tables' t x y ts,
  reachable parses f -> clonable f -> no_generic f -> Permutation (f_decl f) tables ->
  (forall g, clone_remove_column parses f tables t x = Some g -> Permutation (f_decl g) tables') ->
  decl_of (f_decl f) t = Some (Fields ts) -> In x (tpk ts ++ tdf ts) -> ~ In y (tpk ts ++ tdf ts) ->
  (forall z, In z (tpk ts ++ tdf ts) -> z <> x -> lower z <> lower y) ->
  (exists z, In z (tpk ts ++ tdf ts) /\ z <> x) -> (t = "parameters" -> f_params f = []) ->
  x <> "" -> y <> "" ->
  exists h, clone_rename_column parses f tables tables' t x y = Some h /\
    decl_of (f_decl h) t = Some (Fields (mkT (map (renamed x y) (tpk ts)) (map (renamed x y) (tdf ts)))) /\
    (forall t', t' <> t -> decl_of (f_decl h) t' = decl_of (f_decl f) t') /\
    (forall t' x', (t', x') <> (t, x) -> (t', x') <> (t, y) -> shown_default h t' x' = shown_default f t' x' /\
       shown_type h t' x' = shown_type f t' x' /\ shown_tip h t' x' = shown_tip f t' x') /\
    (shown_default h t y = shown_default f t x /\ shown_type h t y = shown_type f t x /\
     shown_tip h t y = shown_tip f t x) /\
    (shown_default h t x = None /\ shown_type h t x = None /\ shown_tip h t x = None) /\
    (forall k, In k (f_fks h) <-> exists k0, In k0 (f_fks f) /\ k = renamed_fk t x y k0) /\ same_rest f h.
Proof. intros parses f tables tables' t x y ts H. apply rename_ok. now apply reachable_inv. Qed.
Print Assumptions C21_rename_column.

(** Renaming the only column of a table, or a column of the parameters table
    once there are parameters, fails. *)
Theorem C21_rename_only_column_refuted : exists f t x y,
  reachable np f /\ clonable f /\ no_generic f /\ field_of (f_decl f) t x /\
  (forall tables, clone_rename_column np f (f_decl f) tables t x y = None).
Proof. exact w_single_refutes. Qed.
Print Assumptions C21_rename_only_column_refuted.

Theorem C21_rename_parameters_column_refuted : exists f x y,
  reachable np f /\ clonable f /\ no_generic f /\ field_of (f_decl f) "parameters" x /\
  (forall tables, clone_rename_column np f (f_decl f) tables "parameters" x y = None).
Proof. exact w_rename_params_refutes. Qed.
Print Assumptions C21_rename_parameters_column_refuted.

(** C22: a used factory is locked, parameters aside, and those can only go. *)
Theorem C22_used_factory_locked : forall parses f ops, f_used f = true ->
  frozen f (run parses f ops) /\
  ((forall n, ~ In (ORemParam n) ops) -> f_params (run parses f ops) = f_params f) /\
  (forall n d, In (n, d) (f_params (run parses f ops)) -> In (n, d) (f_params f)).
Proof. intros parses f ops. exact (run_frozen parses ops f). Qed.
Print Assumptions C22_used_factory_locked.

Theorem C22_remove_parameter_refuted : exists f o,
  reachable np f /\ f_used f = true /\ snd (step np f o) = false /\ f_params (fst (step np f o)) <> f_params f.
Proof. exact w_used_refutes. Qed.
Print Assumptions C22_remove_parameter_refuted.

(** C23: the automatic predicate name is the smallest unused number. *)
Theorem C23_automatic_predicate_name : forall parses f t p g,
  reachable parses f -> step parses f (OPred t (Some p) VNone) = (g, false) ->
  exists i, shown_pred f t (pred_name i) = None /\
    (forall j, (j < i)%nat -> shown_pred f t (pred_name j) <> None) /\
    shown_pred g t (pred_name i) = Some p /\
    (forall t' n, ~ (t' = t /\ pyeq n (pred_name i) = true) -> shown_pred g t' n = shown_pred f t' n) /\
    g = with_preds f (f_preds g).
Proof. intros parses f t p g H. apply auto_name. now apply reachable_inv. Qed.
Print Assumptions C23_automatic_predicate_name.

Theorem C23_when_accepted : forall parses f t p n,
  snd (step parses f (OPred t (Some p) n)) = false <->
  f_used f = false /\ (exists ts, decl_of (f_decl f) t = Some (Fields ts)) /\ ~ In t (f_gens f) /\
  In (p_resp p) ["Boolean"; "Error Message"].
Proof. exact pred_accepted. Qed.
Print Assumptions C23_when_accepted.

(** C24: the last accepted call wins. *)
Theorem C24_last_call_wins : forall parses f ops t x, reachable parses f ->
  (forall l, ~ In (OSetDefaults l, true) (history parses f ops)) ->
  shown_default (run parses f ops) t x = last_default t x (history parses f ops) (shown_default f t x) /\
  shown_type (run parses f ops) t x = last_type t x (history parses f ops) (shown_type f t x) /\
  shown_tip (run parses f ops) t x = last_tip t x (history parses f ops) (shown_tip f t x).
Proof. intros parses f ops t x H. apply last_call_wins. now apply reachable_inv. Qed.
Print Assumptions C24_last_call_wins.

Theorem C24_types_and_tips : forall parses f ops t x, reachable parses f ->
  shown_type (run parses f ops) t x = last_type t x (history parses f ops) (shown_type f t x) /\
  shown_tip (run parses f ops) t x = last_tip t x (history parses f ops) (shown_tip f t x).
Proof. intros parses f ops t x H. apply last_call_wins_types. now apply reachable_inv. Qed.
Print Assumptions C24_types_and_tips.

Theorem C24_rejected_call_changes_nothing : forall parses f o g,
  step parses f o = (g, true) -> (forall l, o <> OSetDefaults l) -> g = f.
Proof. exact rejected_unchanged. Qed.
Print Assumptions C24_rejected_call_changes_nothing.

(** A rejected set_default_values has applied some prefix of its argument. *)
Theorem C24_rejected_set_default_values : forall parses l f t x, reachable parses f ->
  exists l1 l2, l = l1 ++ l2 /\
    shown_default (fst (set_defaults f l)) t x =
    match last_bind tf_eqb (flat l1) (t, x) with Some v => Some v | None => shown_default f t x end.
Proof. intros parses l f t x H. apply (rejected_set_defaults parses). now apply reachable_inv. Qed.
Print Assumptions C24_rejected_set_default_values.

Theorem C24_rejected_call_changes_nothing_refuted : exists f o t x,
  reachable np f /\ snd (step np f o) = true /\ shown_default (fst (step np f o)) t x <> shown_default f t x.
Proof. exact w_half_refutes. Qed.
Print Assumptions C24_rejected_call_changes_nothing_refuted.

(** ** Non-vacuity *)

Definition diet_decl : list (string * tdecl) :=
  [("foods", Fields (mkT ["name"] ["cost"]));
   ("nutrients", Fields (mkT ["name"] ["min"; "max"]));
   ("quantities", Fields (mkT ["food"; "nutrient"] ["qty"]));
   ("stream", Fields (mkT [] ["v"]));
   ("parameters", Fields (mkT ["key"] ["value"]))].

Definition diet_ops : list op :=
  [OAddFk "quantities" "foods" (Simple "food" "name");
   OAddFk "quantities" "nutrients" (Compound [("nutrient", "name")]);
   OSetType "foods" "cost" nonnull_args;
   OSetDefault "nutrients" "max" (VNum PInf);
   OSetDefaults [("foods", [("cost", VNum (of_int 3))]); ("quantities", [("qty", VNone)])];
   OAddParam (VStr "tol") (VNum (of_int 1)) nonnull_args true;
   OSetGens ["stream"];
   OPred "foods" (Some (mkPred 7 None "Boolean")) VNone;
   OPred "foods" (Some (mkPred 8 None "Boolean")) (VNum (of_int 2));
   OTip "foods" "" "what we eat"; OTip "foods" "cost" "price"; OLinks].

Definition diet : factory := the (build diet_decl diet_ops).

Example C19_ex : reachable np diet /\ string_params diet /\ no_empty_fk diet /\
  match create np (schema_in_order diet (rev diet_decl)) with
  | Some g => shown_default g "foods" "cost" = Some (VNum (of_int 3)) /\ List.length (f_fks g) = 2
  | None => False
  end.
Proof.
  split; [apply the_reachable; vm_compute; discriminate |]. split.
  { intros n d H. vm_compute in H. destruct H as [H | []]. injection H as <- _. eauto. }
  split; [| vm_compute; auto].
  intros k H. vm_compute in H. destruct H as [<- | [<- | []]]; discriminate.
Qed.

Example C20_ex : match clone np diet diet_decl (Some ["foods"; "stream"; "quantities"]) with
  | Some g => map (fun k => (fk_native k, fk_foreign k)) (f_fks g) = [("quantities", "foods")] /\
              f_params g = [] /\ shown_pred g "foods" (VNum (of_int 2)) = Some (mkPred 8 None "Boolean")
  | None => False
  end.
Proof. vm_compute. auto. Qed.

Example C20_hypotheses_ex : clonable diet /\ no_generic diet /\
  (forall t, In t (f_gens diet) -> In t ["foods"; "stream"; "quantities"]).
Proof.
  destruct C19_ex as (_ & A & B & _). split; [| split].
  - split; [exact A |]. split; [exact B |]. intros t n H. vm_compute in H.
    destruct H as [<- | []]. vm_compute. reflexivity.
  - apply no_generic_check. vm_compute. reflexivity.
  - intros t H. vm_compute in H. destruct H as [<- | []]. simpl. auto.
Qed.

Example C21_add_ex : match clone_add_column np diet diet_decl "nutrients" "unit" false (Some 1) with
  | Some g => decl_of (f_decl g) "nutrients" = Some (Fields (mkT ["name"] ["min"; "unit"; "max"]))
  | None => False
  end.
Proof. vm_compute. reflexivity. Qed.

Example C21_remove_ex : match clone_remove_column np diet diet_decl "nutrients" "name" with
  | Some g => decl_of (f_decl g) "nutrients" = Some (Fields (mkT [] ["min"; "max"])) /\
              map (fun k => (fk_native k, fk_foreign k)) (f_fks g) = [("quantities", "foods")]
  | None => False
  end.
Proof. vm_compute. auto. Qed.

Example C21_rename_ex :
  match clone_rename_column np diet diet_decl
          (match clone_remove_column np diet diet_decl "foods" "name" with Some g => f_decl g | None => [] end)
          "foods" "name" "id" with
  | Some h => decl_of (f_decl h) "foods" = Some (Fields (mkT ["id"] ["cost"])) /\
              In (mkFk "quantities" "foods" [("food", "id")]) (f_fks h)
  | None => False
  end.
Proof. vm_compute. auto. Qed.

Example C22_ex : f_used (run np diet [OUse]) = true /\
  f_fks (run np diet [OUse; OClearFks None; OSetDefault "foods" "cost" (VNum (of_int 9))]) = f_fks diet /\
  shown_default (run np diet [OUse; OSetDefault "foods" "cost" (VNum (of_int 9))]) "foods" "cost" =
    Some (VNum (of_int 3)).
Proof. vm_compute. auto. Qed.

(** 0 and 2 are taken, the next automatic names are 1 and 3. *)
Example C23_ex :
  let g := run np diet [OPred "foods" (Some (mkPred 9 None "Boolean")) VNone;
                        OPred "foods" (Some (mkPred 10 None "Boolean")) VNone] in
  shown_pred g "foods" (pred_name 1) = Some (mkPred 9 None "Boolean") /\
  shown_pred g "foods" (pred_name 3) = Some (mkPred 10 None "Boolean").
Proof. vm_compute. auto. Qed.

(** Accepted, accepted, rejected, accepted for another field, cleared. *)
Example C24_ex :
  let ops := [OSetDefault "foods" "cost" (VNum (of_int 4)); OSetDefault "foods" "cost" (VStr "x");
              OSetDefault "foods" "oops" (VStr "y"); OSetDefault "nutrients" "min" VNone;
              OClearType "foods" "cost"; OTip "foods" "cost" ""] in
  shown_default (run np diet ops) "foods" "cost" = Some (VStr "x") /\
  map snd (history np diet ops) = [false; false; true; false; false; false] /\
  shown_type (run np diet ops) "foods" "cost" = None /\ shown_tip (run np diet ops) "foods" "cost" = None.
Proof. vm_compute. auto. Qed.
