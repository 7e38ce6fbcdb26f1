(** * Properties C114-C118: PanDatFactory as a state machine, clones of the other kind, new tables. *)
From Coq Require Import ZArith Bool List String Ascii Arith Lia Permutation.
From Verif Require Import PyVal PyValFacts PyDict PyDictFacts PyStr ListFacts TypeDict TypeDictFacts Data
  FindTypes FindTypesFacts FK FKFacts ImpliedFacts WfCheck GraphFacts Factory FactoryFacts FactoryMore FactoryClone
  FactoryEdit FactoryColumns FactoryRename FactoryHist FactoryWitness PanFac PanFacFacts PanFacMore PanFacKinds PanFacWitness.
Import ListNotations.
Local Open Scope string_scope.
Local Open Scope list_scope.

(** C114: the full schema of a PanDatFactory rebuilds it, whatever the order of the tables. *)
Theorem C114_pan_schema_round_trip : forall parses f tables,
  pan_reachable parses f -> string_params f -> Permutation (f_decl f) tables ->
  exists g, pan_create parses (schema_in_order f tables) = Some g /\
    (forall t, decl_of (f_decl g) t = decl_of (f_decl f) t) /\
    f_fks g = f_fks f /\ f_params g = f_params f /\
    (forall t x, shown_default g t x = shown_default f t x /\ shown_type g t x = shown_type f t x /\
                 shown_tip g t x = shown_tip f t x) /\
    same_settings f g.
Proof. intros parses f tables H. apply pan_roundtrip_ok. now apply pan_reachable_inv. Qed.
Print Assumptions C114_pan_schema_round_trip.

Theorem C114_non_string_parameter_refuted : exists f,
  pan_reachable np f /\ pan_create np (schema_in_order f (f_decl f)) = None.
Proof. exact pw_param_refutes. Qed.
Print Assumptions C114_non_string_parameter_refuted.

(** C115: clones and column edits of a PanDatFactory. *)
Theorem C115_pan_restricted_clone : forall parses f tables keep,
  pan_reachable parses f -> string_params f -> no_generic f -> Permutation (f_decl f) tables ->
  keep <> [] -> (forall t, In t keep -> in_tables f t) ->
  exists g, pan_clone parses f tables (Some keep) = Some g /\
    (forall t, In t keep -> decl_of (f_decl g) t = decl_of (f_decl f) t /\
       (forall x, shown_default g t x = shown_default f t x /\ shown_type g t x = shown_type f t x /\
                  shown_tip g t x = shown_tip f t x) /\
       (forall n, shown_pred g t n = shown_pred f t n)) /\
    (forall t, ~ In t keep -> decl_of (f_decl g) t = None /\
       (forall x, shown_default g t x = None /\ shown_type g t x = None /\ shown_tip g t x = None) /\
       (forall n, shown_pred g t n = None)) /\
    (forall k, In k (f_fks g) <-> In k (f_fks f) /\ In (fk_native k) keep /\ In (fk_foreign k) keep) /\
    (In "parameters" keep -> f_params g = f_params f) /\ (~ In "parameters" keep -> f_params g = []) /\
    same_settings f g.
Proof. intros parses f tables keep H. apply pan_clone_ok. now apply pan_reachable_inv. Qed.
Print Assumptions C115_pan_restricted_clone.

Theorem C115_pan_full_clone : forall parses f tables,
  pan_reachable parses f -> string_params f -> Permutation (f_decl f) tables ->
  exists g, pan_clone parses f tables None = Some g /\
    (forall t, decl_of (f_decl g) t = decl_of (f_decl f) t) /\
    (forall t x, shown_default g t x = shown_default f t x /\ shown_type g t x = shown_type f t x /\
                 shown_tip g t x = shown_tip f t x) /\
    (forall k, In k (f_fks g) <-> In k (f_fks f)) /\ f_params g = f_params f /\
    (forall t n, shown_pred g t n = shown_pred f t n) /\ same_settings f g.
Proof. intros parses f tables H. apply pan_clone_all_ok. now apply pan_reachable_inv. Qed.
Print Assumptions C115_pan_full_clone.

Theorem C115_pan_add_column : forall parses f tables t x (kf : bool) pos ts i,
  pan_reachable parses f -> string_params f -> no_generic f -> Permutation (f_decl f) tables ->
  decl_of (f_decl f) t = Some (Fields ts) -> ~ In (lower x) (map lower (tpk ts ++ tdf ts)) ->
  (i = match pos with Some i => i | None => List.length (if kf then tpk ts else tdf ts) end) ->
  (i <= List.length (if kf then tpk ts else tdf ts))%nat -> (t = "parameters" -> f_params f = []) ->
  exists g, pan_add_column parses f tables t x kf pos = Some g /\ pan_reachable parses g /\
    decl_of (f_decl g) t = Some (Fields (with_field kf i x ts)) /\
    (forall t', t' <> t -> decl_of (f_decl g) t' = decl_of (f_decl f) t') /\
    (forall t' x', (t', x') <> (t, x) -> shown_default g t' x' = shown_default f t' x') /\
    shown_default g t x = (if kf then None else Some (VNum (of_int 0))) /\
    (forall t' x', shown_type g t' x' = shown_type f t' x' /\ shown_tip g t' x' = shown_tip f t' x') /\
    (forall k, In k (f_fks g) <-> In k (f_fks f)) /\ pan_rest f g.
Proof.
  intros parses f tables t x kf pos ts i H A B C D E F G I. apply pan_reachable_inv in H.
  destruct (pan_add_ok parses f tables t x kf pos ts i H A B C D E F G I)
    as (g & np & _ & _ & E1 & _ & G1 & G2 & G3 & G4 & G5 & G6 & G7).
  exists (with_preds g np). split; [exact E1 |]. split; [eapply add_reachable; exact E1 |].
  split; [exact G1 |]. split; [exact G2 |]. split; [exact G3 |]. split; [exact G4 |]. split; [exact G5 |].
  split; [exact G6 | exact G7].
Qed.
Print Assumptions C115_pan_add_column.

Theorem C115_pan_remove_column : forall parses f tables t x ts,
  pan_reachable parses f -> string_params f -> no_generic f -> Permutation (f_decl f) tables ->
  decl_of (f_decl f) t = Some (Fields ts) -> In x (tpk ts ++ tdf ts) ->
  (exists z, In z (tpk ts ++ tdf ts) /\ z <> x) -> (t = "parameters" -> f_params f = []) ->
  exists g, pan_remove_column parses f tables t x = Some g /\ pan_reachable parses g /\
    decl_of (f_decl g) t = Some (Fields (mkT (remove string_dec x (tpk ts)) (remove string_dec x (tdf ts)))) /\
    (forall t', t' <> t -> decl_of (f_decl g) t' = decl_of (f_decl f) t') /\
    (forall t' x', (t', x') <> (t, x) -> shown_default g t' x' = shown_default f t' x' /\
       shown_type g t' x' = shown_type f t' x' /\ shown_tip g t' x' = shown_tip f t' x') /\
    shown_default g t x = None /\ shown_type g t x = None /\ shown_tip g t x = None /\
    (forall k, In k (f_fks g) <-> In k (f_fks f) /\ ~ fk_uses k t x) /\ pan_rest f g.
Proof.
  intros parses f tables t x ts H A B C D E F G. apply pan_reachable_inv in H.
  destruct (pan_remove_ok parses f tables t x ts H A B C D E F G)
    as (g & np & _ & _ & E1 & _ & G1 & G2 & G3 & G4 & G5 & G6 & G7 & G8).
  exists (with_preds g np). split; [exact E1 |]. split; [eapply remove_reachable; exact E1 |].
  split; [exact G1 |]. split; [exact G2 |]. split; [exact G3 |]. split; [exact G4 |]. split; [exact G5 |].
  split; [exact G6 |]. split; [exact G7 | exact G8].
Qed.
Print Assumptions C115_pan_remove_column.

Theorem C115_pan_rename_column : forall parses f tables tables' t x y ts,
  pan_reachable parses f -> string_params f -> no_generic f -> Permutation (f_decl f) tables ->
  (forall g, pan_remove_column parses f tables t x = Some g -> Permutation (f_decl g) tables') ->
  decl_of (f_decl f) t = Some (Fields ts) -> In x (tpk ts ++ tdf ts) -> ~ In y (tpk ts ++ tdf ts) ->
  (forall z, In z (tpk ts ++ tdf ts) -> z <> x -> lower z <> lower y) ->
  (exists z, In z (tpk ts ++ tdf ts) /\ z <> x) -> (t = "parameters" -> f_params f = []) -> x <> "" -> y <> "" ->
  exists h, pan_rename_column parses f tables tables' t x y = Some h /\
    decl_of (f_decl h) t = Some (Fields (mkT (map (renamed x y) (tpk ts)) (map (renamed x y) (tdf ts)))) /\
    (forall t', t' <> t -> decl_of (f_decl h) t' = decl_of (f_decl f) t') /\
    (forall t' x', (t', x') <> (t, x) -> (t', x') <> (t, y) -> shown_default h t' x' = shown_default f t' x' /\
       shown_type h t' x' = shown_type f t' x' /\ shown_tip h t' x' = shown_tip f t' x') /\
    (shown_default h t y = shown_default f t x /\ shown_type h t y = shown_type f t x /\
     shown_tip h t y = shown_tip f t x) /\
    (shown_default h t x = None /\ shown_type h t x = None /\ shown_tip h t x = None) /\
    (forall k, In k (f_fks h) <-> exists k0, In k0 (f_fks f) /\ k = renamed_fk t x y k0) /\ pan_rest f h.
Proof. intros parses f tables tables' t x y ts H. apply pan_rename_ok. now apply pan_reachable_inv. Qed.
Print Assumptions C115_pan_rename_column.

(** One generic table, and every restricted clone fails, even one that keeps all tables. *)
Theorem C115_clone_with_generic_table_refuted : exists f keep, pan_reachable np f /\ string_params f /\ keep <> [] /\
  (forall t, In t keep -> in_tables f t) /\ pan_clone np f (f_decl f) (Some keep) = None.
Proof. exact pw_generic_refutes. Qed.
Print Assumptions C115_clone_with_generic_table_refuted.

Theorem C115_rename_only_column_refuted : exists f t x y, pan_reachable np f /\ string_params f /\ no_generic f /\
  field_of (f_decl f) t x /\ (forall tables, pan_rename_column np f (f_decl f) tables t x y = None).
Proof. exact pw_single_refutes. Qed.
Print Assumptions C115_rename_only_column_refuted.

Theorem C115_rename_parameters_column_refuted : exists f x y, pan_reachable np f /\ string_params f /\ no_generic f /\
  field_of (f_decl f) "parameters" x /\
  (forall tables, pan_rename_column np f (f_decl f) tables "parameters" x y = None).
Proof. exact pw_rename_params_refutes. Qed.
Print Assumptions C115_rename_parameters_column_refuted.

(** C116: clones of the other kind.  [moved] says what is seen through the clone. *)
Theorem C116_tic_to_pan : forall parses f tables keep conv,
  reachable parses f -> string_params f -> no_empty_fk f -> keep_ok f keep -> Permutation (f_decl f) tables ->
  f_links f = false ->
  exists g, tic_to_pan parses f tables keep conv = Some g /\ pan_reachable parses g /\ moved f g keep conv.
Proof. intros parses f tables keep conv H. apply tic_to_pan_ok. now apply reachable_inv. Qed.
Print Assumptions C116_tic_to_pan.

Theorem C116_pan_to_tic : forall parses f tables keep conv,
  pan_reachable parses f -> string_params f -> keep_ok f keep -> Permutation (f_decl f) tables ->
  (forall t n p, wanted keep t -> shown_pred f t n = Some p -> travels conv p -> decl_of (f_decl f) t <> Some Generic) ->
  exists g, pan_to_tic parses f tables keep conv = Some g /\ reachable parses g /\ moved f g keep conv.
Proof. intros parses f tables keep conv H. apply pan_to_tic_ok. now apply pan_reachable_inv. Qed.
Print Assumptions C116_pan_to_tic.

Theorem C116_links_refuted : exists f, reachable np f /\ string_params f /\ no_empty_fk f /\
  forall conv, tic_to_pan np f (f_decl f) None conv = None.
Proof. exact w_links_refutes. Qed.
Print Assumptions C116_links_refuted.

Theorem C116_generic_predicate_refuted : exists f, pan_reachable np f /\ string_params f /\
  forall conv, pan_to_tic np f (f_decl f) None conv = None.
Proof. exact pw_genpred_refutes. Qed.
Print Assumptions C116_generic_predicate_refuted.

(** C117: [clone_add_a_table] adds the table and nothing else. *)
Theorem C117_add_table : forall parses f tables t pk df,
  reachable parses f -> clonable f -> no_generic f -> (exists t0, in_tables f t0) -> Permutation (f_decl f) tables ->
  table_welcome f t pk df ->
  exists g, clone_add_table parses f tables t pk df = Some g /\ reachable parses g /\ f_used g = false /\
    decl_of (f_decl g) t = Some (Fields (mkT pk df)) /\
    (forall t', t' <> t -> decl_of (f_decl g) t' = decl_of (f_decl f) t') /\
    (forall t' x, t' <> t -> shown_default g t' x = shown_default f t' x) /\
    (forall x, shown_default g t x = if in_dec string_dec x df then Some (VNum (of_int 0)) else None) /\
    (forall t' x, shown_type g t' x = shown_type f t' x /\ shown_tip g t' x = shown_tip f t' x) /\
    (forall k, In k (f_fks g) <-> In k (f_fks f)) /\ same_rest f g.
Proof. intros parses f tables t pk df H. apply table_ok. now apply reachable_inv. Qed.
Print Assumptions C117_add_table.

Theorem C117_pan_add_table : forall parses f tables t pk df,
  pan_reachable parses f -> string_params f -> no_generic f -> (exists t0, in_tables f t0) ->
  Permutation (f_decl f) tables -> table_welcome f t pk df ->
  exists g, pan_add_table parses f tables t pk df = Some g /\ pan_reachable parses g /\ f_used g = false /\
    decl_of (f_decl g) t = Some (Fields (mkT pk df)) /\
    (forall t', t' <> t -> decl_of (f_decl g) t' = decl_of (f_decl f) t') /\
    (forall t' x, t' <> t -> shown_default g t' x = shown_default f t' x) /\
    (forall x, shown_default g t x = if in_dec string_dec x df then Some (VNum (of_int 0)) else None) /\
    (forall t' x, shown_type g t' x = shown_type f t' x /\ shown_tip g t' x = shown_tip f t' x) /\
    (forall k, In k (f_fks g) <-> In k (f_fks f)) /\ pan_rest f g.
Proof. intros parses f tables t pk df H. apply pan_table_ok. now apply pan_reachable_inv. Qed.
Print Assumptions C117_pan_add_table.

Theorem C117_generic_table_refuted :
  (exists f t pk df, reachable np f /\ clonable f /\ table_welcome f t pk df /\
     (exists t0, in_tables f t0) /\ clone_add_table np f (f_decl f) t pk df = None) /\
  (exists f t pk df, pan_reachable np f /\ string_params f /\ table_welcome f t pk df /\
     (exists t0, in_tables f t0) /\ pan_add_table np f (f_decl f) t pk df = None).
Proof. split; [exact w_table_generic_refutes | exact pw_table_generic_refutes]. Qed.
Print Assumptions C117_generic_table_refuted.

(** The first table cannot be added to an empty factory. *)
Theorem C117_first_table_refuted :
  (exists f t pk df, reachable np f /\ clonable f /\ no_generic f /\ table_welcome f t pk df /\
     clone_add_table np f (f_decl f) t pk df = None) /\
  (exists f t pk df, pan_reachable np f /\ string_params f /\ no_generic f /\ table_welcome f t pk df /\
     pan_add_table np f (f_decl f) t pk df = None).
Proof. split; [exact w_table_none_refutes | exact pw_table_none_refutes]. Qed.
Print Assumptions C117_first_table_refuted.

(** C118: histories of a PanDatFactory. *)
Theorem C118_used_factory_locked : forall parses f ops, f_used f = true ->
  frozen f (pan_run parses f ops) /\
  ((forall n, ~ In (ORemParam n) ops) -> f_params (pan_run parses f ops) = f_params f) /\
  (forall n d, In (n, d) (f_params (pan_run parses f ops)) -> In (n, d) (f_params f)).
Proof. intros parses f ops. exact (pan_run_frozen parses ops f). Qed.
Print Assumptions C118_used_factory_locked.

Theorem C118_last_call_wins : forall parses f ops t x, pan_reachable parses f ->
  (forall l, ~ In (OSetDefaults l, true) (pan_history parses f ops)) ->
  shown_default (pan_run parses f ops) t x = last_default t x (pan_history parses f ops) (shown_default f t x) /\
  shown_type (pan_run parses f ops) t x = last_type t x (pan_history parses f ops) (shown_type f t x) /\
  shown_tip (pan_run parses f ops) t x = last_tip t x (pan_history parses f ops) (shown_tip f t x).
Proof. intros parses f ops t x H. apply pan_last_call. now apply pan_reachable_inv. Qed.
Print Assumptions C118_last_call_wins.

Theorem C118_rejected_call_changes_nothing : forall parses f o g,
  pan_step parses f o = (g, true) -> (forall l, o <> OSetDefaults l) -> g = f.
Proof. exact pan_rejected_unchanged. Qed.
Print Assumptions C118_rejected_call_changes_nothing.

(** [set_default_values] assigns the leading part of its argument; all of it when the call is accepted. *)
Theorem C118_set_default_values : forall f l, exists a b, flat l = a ++ b /\
  (snd (pan_set_defaults f l) = false -> b = []) /\
  forall t x, shown_default (fst (pan_set_defaults f l)) t x =
    match last_bind tf_eqb a (t, x) with Some v => Some v | None => shown_default f t x end.
Proof. exact pan_defaults_prefix. Qed.
Print Assumptions C118_set_default_values.

Theorem C118_automatic_predicate_name : forall parses f t p g,
  pan_step parses f (OPred t (Some p) VNone) = (g, false) ->
  exists i, shown_pred f t (pred_name i) = None /\
    (forall j, (j < i)%nat -> shown_pred f t (pred_name j) <> None) /\
    shown_pred g t (pred_name i) = Some p /\
    (forall t' n, ~ (t' = t /\ pyeq n (pred_name i) = true) -> shown_pred g t' n = shown_pred f t' n) /\
    g = with_preds f (f_preds g).
Proof. exact pan_auto_name. Qed.
Print Assumptions C118_automatic_predicate_name.

Theorem C118_when_accepted : forall parses f t p n,
  snd (pan_step parses f (OPred t (Some p) n)) = false <->
  f_used f = false /\ in_tables f t /\ In (p_resp p) ["Boolean"; "Error Message"].
Proof. exact pan_pred_accepted. Qed.
Print Assumptions C118_when_accepted.

Theorem C118_remove_parameter_refuted : exists f o,
  pan_reachable np f /\ f_used f = true /\ snd (pan_step np f o) = false /\
  f_params (fst (pan_step np f o)) <> f_params f.
Proof. exact pw_used_refutes. Qed.
Print Assumptions C118_remove_parameter_refuted.

Theorem C118_rejected_call_changes_nothing_refuted : exists f o t x,
  pan_reachable np f /\ snd (pan_step np f o) = true /\ shown_default (fst (pan_step np f o)) t x <> shown_default f t x.
Proof. exact pw_half_refutes. Qed.
Print Assumptions C118_rejected_call_changes_nothing_refuted.

(** ** Non-vacuity *)

Definition mart_decl : list (string * tdecl) :=
  [("foods", Fields (mkT ["name"] ["cost"]));
   ("nutrients", Fields (mkT ["name"] ["min"; "max"]));
   ("quantities", Fields (mkT ["food"; "nutrient"] ["qty"]));
   ("parameters", Fields (mkT ["key"] ["value"]))].

Definition mart_ops : list op :=
  [OAddFk "quantities" "foods" (Simple "food" "name");
   OAddFk "quantities" "nutrients" (Compound [("nutrient", "name")]);
   OSetType "foods" "cost" nonnull_args;
   OSetDefault "nutrients" "max" (VNum PInf);
   OSetDefaults [("foods", [("cost", VNum (of_int 3))]); ("quantities", [("qty", VNone)])];
   OAddParam (VStr "tol") (VNum (of_int 1)) nonnull_args true;
   OSetGens ["foods"]; OLinks;
   OPred "foods" (Some (mkPred 7 None "Boolean")) VNone;
   OPred "foods" (Some (mkPred 8 (Some 1) "Boolean")) (VNum (of_int 2));
   OTip "foods" "" "what we eat"; OTip "foods" "cost" "price"].

Definition mart : factory := the (pan_build mart_decl mart_ops).

Example C114_ex : pan_reachable np mart /\ string_params mart /\ no_generic mart /\
  match pan_create np (schema_in_order mart (rev mart_decl)) with
  | Some g => shown_default g "foods" "cost" = Some (VNum (of_int 3)) /\ List.length (f_fks g) = 2
  | None => False
  end.
Proof.
  split; [apply pan_the_reachable; vm_compute; discriminate |]. split.
  { intros n d H. vm_compute in H. destruct H as [H | []]. injection H as <- _. eauto. }
  split; [apply no_generic_check; vm_compute; reflexivity | vm_compute; auto].
Qed.

Example C115_ex :
  match pan_clone np mart (rev mart_decl) (Some ["foods"; "quantities"]),
        pan_add_column np mart mart_decl "nutrients" "unit" false (Some 1),
        pan_remove_column np mart mart_decl "nutrients" "name",
        pan_rename_column np mart mart_decl
          (match pan_remove_column np mart mart_decl "foods" "name" with Some g => f_decl g | None => [] end)
          "foods" "name" "id" with
  | Some a, Some b, Some c, Some d =>
      map (fun k => (fk_native k, fk_foreign k)) (f_fks a) = [("quantities", "foods")] /\ f_params a = [] /\
      shown_pred a "foods" (VNum (of_int 2)) = Some (mkPred 8 (Some 1) "Boolean") /\
      decl_of (f_decl b) "nutrients" = Some (Fields (mkT ["name"] ["min"; "unit"; "max"])) /\
      decl_of (f_decl c) "nutrients" = Some (Fields (mkT [] ["min"; "max"])) /\
      map (fun k => (fk_native k, fk_foreign k)) (f_fks c) = [("quantities", "foods")] /\
      decl_of (f_decl d) "foods" = Some (Fields (mkT ["id"] ["cost"])) /\
      shown_pred d "foods" (VNum (of_int 2)) = Some (mkPred 8 (Some 1) "Boolean")
  | _, _, _, _ => False
  end.
Proof. vm_compute. repeat (split; [reflexivity |]). reflexivity. Qed.

(** The predicate with a kwargs maker travels only with a converter. *)
Example C116_ex :
  match pan_to_tic np mart mart_decl None false, pan_to_tic np mart mart_decl (Some ["foods"]) true with
  | Some g, Some h =>
      shown_pred g "foods" (VNum (of_int 0)) = Some (mkPred 7 None "Boolean") /\
      shown_pred g "foods" (VNum (of_int 2)) = None /\
      shown_pred h "foods" (VNum (of_int 2)) = Some (mkPred 8 (Some 1) "Boolean") /\
      map fst (f_decl h) = ["foods"] /\
      match tic_to_pan np g (f_decl g) None false with
      | Some i => shown_default i "foods" "cost" = Some (VNum (of_int 3)) /\ f_params i = f_params mart
      | None => False
      end
  | _, _ => False
  end.
Proof. vm_compute. repeat (split; [reflexivity |]). split; reflexivity. Qed.

Example C116_hypotheses_ex : keep_ok mart (Some ["foods"]) /\
  forall t n p, wanted (Some ["foods"]) t -> shown_pred mart t n = Some p -> travels true p ->
    decl_of (f_decl mart) t <> Some Generic.
Proof.
  destruct C114_ex as (_ & _ & N & _). split; [| intros t n p _ _ _; apply N].
  split; [exact N |]. split; [discriminate |]. intros t [<- | []]. unfold in_tables. vm_compute. discriminate.
Qed.

Example C117_ex : table_welcome mart "buy" ["food"] ["amount"; "day"] /\
  match pan_add_table np mart (rev mart_decl) "buy" ["food"] ["amount"; "day"] with
  | Some g => decl_of (f_decl g) "buy" = Some (Fields (mkT ["food"] ["amount"; "day"])) /\
              shown_default g "buy" "day" = Some (VNum (of_int 0)) /\ List.length (f_fks g) = 2
  | None => False
  end.
Proof.
  split; [| vm_compute; auto]. split; [reflexivity |]. split; [reflexivity |].
  split; [apply (proj1 (mem_str_false _ _)); reflexivity |]. split; [discriminate |].
  apply (nodup_b_ok String.eqb String.eqb_eq). reflexivity.
Qed.

(** Half of a rejected set_default_values stays; an accepted predicate on a generic table. *)
Example C118_ex :
  let ops := [OSetDefault "foods" "cost" (VNum (of_int 4)); OSetDefaults [("foods", [("cost", VStr "x")])];
              OSetDefault "foods" "oops" (VStr "y"); OClearType "foods" "cost"; OLinks; OTip "foods" "cost" ""] in
  map snd (pan_history np mart ops) = [false; false; true; false; true; false] /\
  shown_default (pan_run np mart ops) "foods" "cost" = Some (VStr "x") /\
  shown_type (pan_run np mart ops) "foods" "cost" = None /\ shown_tip (pan_run np mart ops) "foods" "cost" = None /\
  f_used (pan_run np mart [OUse]) = true /\
  f_fks (pan_run np mart [OUse; OClearFks None]) = f_fks mart /\
  shown_pred pw_genpred "g" (pred_name 0) = Some (mkPred 0 None "Boolean").
Proof. vm_compute. repeat (split; [reflexivity |]). reflexivity. Qed.
