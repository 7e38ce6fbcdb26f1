(** Properties C124-C127: the solver wrapper. *)
From Coq Require Import ZArith Bool List String Arith Lia.
From Verif Require Import PyVal PyValFacts PyDict PyDictFacts Solver SolverFacts.
Import ListNotations.
Local Open Scope string_scope.
Local Open Scope list_scope.

(** ** C124 One model, three engines *)

(** Indicator constraints are refused on CPLEX. *)
Theorem C124_indicator_refuted : forall c i on f,
  bstep Cplex c (BInd i on f) = (c, true) /\ snd (bstep Gurobi c (BInd i on f)) = false /\ snd (bstep Xpress c (BInd i on f)) = false.
Proof. intros c i on f. split; [| split]; reflexivity. Qed.
Print Assumptions C124_indicator_refuted.

(** Every other sequence of calls raises at the same calls and ends in a model with the same variables, the same
    objective and the same solutions. *)
Theorem C124_engines : forall ops e e', Forall no_indicator ops \/ e <> Cplex /\ e' <> Cplex ->
  snd (brun e new_core ops) = snd (brun e' new_core ops) /\
  List.length (c_vars (fst (brun e new_core ops))) = List.length (c_vars (fst (brun e' new_core ops))) /\
  c_obj (fst (brun e new_core ops)) = c_obj (fst (brun e' new_core ops)) /\
  forall a, feasible (fst (brun e new_core ops)) a <-> feasible (fst (brun e' new_core ops)) a.
Proof.
  intros ops e e' H. destruct (brun_same e e' ops new_core new_core) as (A & B & C & D); auto.
  split; auto. split; auto. intros a. reflexivity.
Qed.
Print Assumptions C124_engines.

(** [add_var] takes exactly the sensible arguments, and the new variable can be exactly what they say. *)
Theorem C124_var : forall e c lb ub type,
  (forall c', add_var e c lb ub type = Some c' ->
     exists k l u, kind_of type = Some k /\ lb = VNum l /\ ub = VNum u /\ acceptable k l u /\ List.length (c_vars c') = S (List.length (c_vars c)) /\ c_obj c' = c_obj c /\
       forall a, feasible c' a <-> feasible c a /\ allowed k l u (a (List.length (c_vars c)))) /\
  (add_var e c lb ub type = None <-> ~ exists k l u, kind_of type = Some k /\ lb = VNum l /\ ub = VNum u /\ acceptable k l u).
Proof. exact add_var_exact. Qed.
Print Assumptions C124_var.

(** The other calls: a constraint is added to those there are, an indicator binds when its variable is 1 (or 0, for a falsy
    indicator), the objective is replaced and has the sense asked for; any other sense is refused. *)
Theorem C124_calls : forall e c,
  (forall f, exists c', bstep e c (BCon f) = (c', false) /\ c_vars c' = c_vars c /\ c_obj c' = c_obj c /\
     forall a, feasible c' a <-> feasible c a /\ f a = true) /\
  (forall i on f, e <> Cplex -> exists c', bstep e c (BInd i on f) = (c', false) /\ c_vars c' = c_vars c /\ c_obj c' = c_obj c /\
     forall a, feasible c' a <-> feasible c a /\ (Fin (a i) = (if truthy on then of_int 1 else of_int 0) -> f a = true)) /\
  (forall f, exists c', bstep e c (BObj f "maximize") = (c', false) /\ c_vars c' = c_vars c /\ c_obj c' = Some (f, true) /\
     forall a, feasible c' a <-> feasible c a) /\
  (forall f, exists c', bstep e c (BObj f "minimize") = (c', false) /\ c_vars c' = c_vars c /\ c_obj c' = Some (f, false) /\
     forall a, feasible c' a <-> feasible c a) /\
  (forall f sense, sense <> "maximize" -> sense <> "minimize" -> bstep e c (BObj f sense) = (c, true)).
Proof.
  intros e c. split; [| split; [| split; [| split]]].
  - intros f. eexists. split; [reflexivity |]. split; [reflexivity |]. split; [reflexivity |]. intros a. rewrite feasible_con. reflexivity.
  - intros i on f He. exists (core_con c (CInd i (truthy on) f)). split; [destruct e; congruence || reflexivity |]. split; [reflexivity |]. split; [reflexivity |].
    intros a. rewrite feasible_con. cbn [con_allows]. rewrite orb_true_iff, negb_true_iff, Z.eqb_neq.
    assert (Fin (a i) = (if truthy on then of_int 1 else of_int 0) <-> a i = (if truthy on then one_units else 0%Z)) as E.
    { rewrite of_int_0, of_int_1. destruct (truthy on); split; congruence. }
    rewrite E. destruct (Z.eq_dec (a i) (if truthy on then one_units else 0%Z)); tauto.
  - intros f. eexists. split; [reflexivity |]. split; [reflexivity |]. split; [reflexivity |]. intros a. reflexivity.
  - intros f. eexists. split; [reflexivity |]. split; [reflexivity |]. split; [reflexivity |]. intros a. reflexivity.
  - intros f sense H1 H2. cbn [bstep]. apply String.eqb_neq in H1, H2. now rewrite H1, H2.
Qed.
Print Assumptions C124_calls.

Definition w124_ops : list bop :=
  [BVar (VNum (of_int 1)) (VNum PInf) "binary"; BVar (VNum (of_int 0)) (VNum (of_int 0)) "binary"; BVar (VNum NInf) (VNum (of_int 9)) "integer"; BVar (VNum (of_int 2)) (VNum (of_int 1)) "continuous";
   BCon (fun a => Z.leb (a 0) (a 2)); BObj (fun a => a 2) "maximize"].
Example C124_ex : Forall no_indicator w124_ops /\ snd (brun Cplex new_core w124_ops) = [false; false; false; true; false; false] /\
  List.length (c_cons (fst (brun Gurobi new_core w124_ops))) = 1 /\ List.length (c_cons (fst (brun Cplex new_core w124_ops))) = 3 /\
  forall z, allowed Binary (of_int 1) PInf z <-> Fin z = of_int 1.
Proof.
  split; [repeat constructor |]. split; [vm_compute; reflexivity |]. split; [vm_compute; reflexivity |]. split; [vm_compute; reflexivity |].
  intros z. unfold allowed. rewrite of_int_0, of_int_1. pose proof one_units_pos. split.
  - intros (A & _ & [B | B]); auto. injection B as ->. cbn [num_ltb] in A. apply Z.ltb_ge in A. lia.
  - intros E. rewrite E. split; [cbn [num_ltb]; apply Z.ltb_irrefl |]. split; auto.
Qed.

(** ** C125 Solution values *)

(** On Xpress a variable added to core_model shifts the values of the variables added later. *)
Theorem C125_core_variable_refuted : exists before r l i, lawful (var_count (srun Xpress new_session before)) r /\ r_status r = SOptimal /\ r_values r = Some l /\
  i < var_count (srun Xpress new_session before) /\
  let s := sstep Xpress (srun Xpress new_session before) (SSolve r) in
  get_solution_value Xpress s i <> nth_error l i /\ get_solution_value Xpress s i = nth_error l 0 /\ i = 1.
Proof.
  exists [SCoreVar (mkV Continuous (of_int 0) PInf); SBuild (BVar (VNum (of_int 0)) (VNum PInf) "continuous")], (mkR SOptimal (Some [7%Z; 8%Z])), [7%Z; 8%Z], 1.
  split; [split; [intros _; eexists; reflexivity | split; [discriminate | intros l H; injection H as <-; vm_compute; reflexivity]] |]. split; [reflexivity |]. split; [reflexivity |].
  split; [vm_compute; lia |]. split; [vm_compute; discriminate |]. split; [vm_compute; reflexivity | reflexivity].
Qed.
Print Assumptions C125_core_variable_refuted.

(** On CPLEX the values of an earlier solve are still handed out after one that failed. *)
Theorem C125_stale_refuted : exists before r r' l, let s := srun Cplex new_session before in
  Forall no_core_var before /\ lawful (var_count s) r /\ lawful (var_count s) r' /\ r_values r = Some l /\
  let s' := sstep Cplex (sstep Cplex s (SSolve r)) (SSolve r') in
  optimized Cplex (sstep Cplex s (SSolve r)) r' = false /\ get_solution_value Cplex s' 0 = nth_error l 0 /\ nth_error l 0 <> None.
Proof.
  exists [SBuild (BVar (VNum (of_int 0)) (VNum PInf) "continuous")], (mkR SOptimal (Some [7%Z])), (mkR SFailed None), [7%Z].
  split; [repeat constructor |]. split; [split; [intros _; eexists; reflexivity | split; [discriminate | intros l H; injection H as <-; vm_compute; reflexivity]] |].
  split; [split; [discriminate | split; [auto | discriminate]] |]. split; [reflexivity |]. split; [vm_compute; reflexivity |]. split; [vm_compute; reflexivity | discriminate].
Qed.
Print Assumptions C125_stale_refuted.

(** Otherwise, after a successful [optimize], every variable added before has its own value, whatever is added to the model
    afterwards. *)
Theorem C125_values : forall e before r later, Forall no_core_var before -> Forall builds later ->
  let s := srun e new_session before in
  lawful (var_count s) r -> forall l, r_values r = Some l -> r_status r <> SFailed ->
  forall i, i < var_count s -> get_solution_value e (srun e (sstep e s (SSolve r)) later) i = nth_error l i.
Proof. exact value_after. Qed.
Print Assumptions C125_values.

(** [optimize] answers yes exactly if there are values. *)
Theorem C125_answer : forall e s r, lawful (var_count s) r -> (e = Gurobi -> 0 < var_count s) ->
  (optimized e s r = true <-> exists l, r_values r = Some l).
Proof. exact optimized_iff. Qed.
Print Assumptions C125_answer.

Definition w125_var : sop := SBuild (BVar (VNum (of_int 0)) (VNum PInf) "continuous").
Definition w125_before : list sop := [w125_var; SBuild (BVar VNone (VNum PInf) "continuous"); SSolve (mkR SFailed None); w125_var; w125_var].
Example C125_ex : Forall no_core_var w125_before /\ Forall builds [w125_var] /\ var_count (srun Xpress new_session w125_before) = 3 /\
  lawful 3 (mkR SLimit (Some [1; 2; 3]%Z)) /\
  map (get_solution_value Xpress (srun Xpress new_session (w125_before ++ [SSolve (mkR SLimit (Some [1; 2; 3]%Z)); w125_var]))) [0; 1; 2; 3] = [Some 1; Some 2; Some 3; None]%Z.
Proof.
  split; [repeat constructor |]. split; [repeat constructor |]. split; [vm_compute; reflexivity |].
  split; [split; [discriminate | split; [discriminate | intros l H; injection H as <-; reflexivity]] | vm_compute; reflexivity].
Qed.

(** ** C126 Parameters *)

(** A refused call leaves the parameters named before the refused one changed. *)
Theorem C126_refuted : forall e p v, exists p', set_parameters e p [("MIP_Gap", v); ("mip_gap", v)] = (p', true) /\ dget String.eqb p' "MIP_Gap" = Some v.
Proof.
  intros e p v. exists (dset String.eqb p "MIP_Gap" v). split; [reflexivity |]. now rewrite dget_dset_str.
Qed.
Print Assumptions C126_refuted.

Theorem C126_raises : forall e kw p, snd (set_parameters e p kw) = true <-> exists k v, In (k, v) kw /\ ~ (k = "MIP_Gap" \/ k = "time_limit" /\ e <> Cplex).
Proof. exact set_parameters_raises. Qed.
Print Assumptions C126_raises.

Theorem C126_sets : forall e kw p, NoDup (map fst kw) -> (forall k v, In (k, v) kw -> k = "MIP_Gap" \/ k = "time_limit" /\ e <> Cplex) ->
  exists p', set_parameters e p kw = (p', false) /\
    forall k, dget String.eqb p' k = match dget String.eqb kw k with Some v => Some v | None => dget String.eqb p k end.
Proof. exact set_parameters_ok. Qed.
Print Assumptions C126_sets.

Example C126_ex : set_parameters Gurobi [("time_limit", VNum (of_int 9))] [("MIP_Gap", VNum (of_int 0)); ("time_limit", VNum (of_int 5))] =
    ([("time_limit", VNum (of_int 5)); ("MIP_Gap", VNum (of_int 0))], false) /\
  set_parameters Cplex [] [("time_limit", VNum (of_int 5))] = ([], true).
Proof. split; reflexivity. Qed.

(** ** C127 Progress call-backs *)

(** Until CPLEX has found a solution, its listener raises. *)
Theorem C127_cplex_refuted : forall maximize none_yet best, call_back Cplex maximize None none_yet best = None.
Proof. intros [|] none_yet best; reflexivity. Qed.
Print Assumptions C127_cplex_refuted.

(** Otherwise the lower and the upper bound are shown, whichever the sense, provided they are not crossed. *)
Theorem C127_bounds : forall e (maximize : bool) objective none_yet best, (e <> Cplex \/ objective <> None) ->
  let known := match objective with Some o => o | None => none_yet end in
  let lower := if maximize then known else best in
  let upper := if maximize then best else known in
  lower <> PInf -> num_ltb upper lower = false -> call_back e maximize objective none_yet best = Some (lower, upper).
Proof.
  intros e maximize objective none_yet best He known lower upper Hl Ho.
  assert (mip_progress (BCell (VNum lower)) (BCell (VNum upper)) = Some (lower, upper)) as M by (cbn [mip_progress]; now rewrite bounds_ok_le).
  unfold call_back, lower, upper, known in *. destruct objective as [o |]; [now destruct maximize |].
  destruct e; try (now destruct maximize). destruct He; congruence.
Qed.
Print Assumptions C127_bounds.

(** Bounds crossed by more than the tolerance are refused. *)
Theorem C127_crossed : forall l u, (0 <= u < l)%Z -> (l * tol_num < (l - u) * tol_den)%Z -> mip_progress (BCell (VNum (Fin l))) (BCell (VNum (Fin u))) = None.
Proof.
  intros l u H1 H2. cbn [mip_progress bounds_ok]. destruct (Z.leb_spec (l * tol_den - Z.abs l * tol_num) (u * tol_den)) as [H |]; auto.
  rewrite Z.abs_eq in H by lia. rewrite Z.mul_sub_distr_r in H2. lia.
Qed.
Print Assumptions C127_crossed.

Example C127_ex : call_back Gurobi false None (of_int 1000) (of_int 3) = Some (of_int 3, of_int 1000) /\
  call_back Cplex true (Some (of_int 5)) PInf (of_int 8) = Some (of_int 5, of_int 8) /\
  mip_progress (BCell (VNum (of_int 6))) (BCell (VNum (of_int 5))) = None.
Proof. split; [| split]; vm_compute; reflexivity. Qed.
