(** * Property theorems: C54, C55, C59, C69 - C72 (row predicates). *)
From Coq Require Import ZArith Bool List String Arith.
From Verif Require Import PyVal PyDict TypeDict Data WfCheck FindTypes FindTypesFacts FK Factory FactoryFacts FactoryWitness
  InfIO Params RowPred RowPredFacts RowPredMore RowPredPan RowPredParam RowPredSpec RowPredWitness.
Import ListNotations.
Local Open Scope string_scope.
Local Open Scope list_scope.

Section Any.
  (** Any predicates, makers and conversions, whether they return or raise. *)
  Variables K D : Type.
  Variable no_kw : K.
  Variable pred : nat -> list (string * value) -> K -> called value.
  Variable maker : nat -> D -> called (kwres K).
  Variable convert : called (D + string).
  Variable converted : tpn -> bool.
  Variable self : D.
  Variable show : value -> string.
  Variable good_param : list (string * value) -> value.
  Variable handled : bool.
  Notation find_rows := (find_rows K D no_kw pred maker convert converted self show good_param handled).
  Notation pan_find_rows := (pan_find_rows K D no_kw pred maker convert converted self show good_param handled).
  Notation kw_of := (kw_of K D no_kw maker convert converted self handled).
  Notation fails := (fails K pred show good_param handled).
  Notation call_pred := (call_pred K pred good_param).

  (** C54: a predicate with good keyword arguments lists exactly the failing
      rows, with their messages. *)
  Theorem C54_failures_exact : forall l sch d rep t ts ps pn r k,
    wf_preds l -> consistent converted l -> wf_schema sch -> wf_dat sch d -> find_rows l sch d PInf = Ret rep ->
    In (t, ts) sch -> In (t, ps) l -> In (pn, r) ps -> kw_of (t, pn) r = Returned (KDict k) ->
    (forall rid m, listed rep (t, pn) rid m <->
       exists key row, row_in (d t) rid key row /\ fails r k (row_dict ts key row) m) /\
    dget tpn_eqb rep (t, pn) <> Some (ERows []) /\ (forall m, dget tpn_eqb rep (t, pn) <> Some (EAll m)).
  Proof. intros. eapply exact; eauto. Qed.

  (** No row is listed twice, and nothing but declared predicates is listed. *)
  Theorem C54_no_repeats : forall l sch d rep t ts ps pn r rows,
    wf_preds l -> consistent converted l -> wf_schema sch -> wf_dat sch d -> find_rows l sch d PInf = Ret rep ->
    In (t, ts) sch -> In (t, ps) l -> In (pn, r) ps -> dget tpn_eqb rep (t, pn) = Some (ERows rows) ->
    NoDup (map (fun x => rid_canon (fst x)) rows).
  Proof. intros. eapply no_repeats; eauto. Qed.

  Theorem C54_only_declared : forall l sch d rep tp e,
    wf_preds l -> consistent converted l -> find_rows l sch d PInf = Ret rep -> dget tpn_eqb rep tp = Some e ->
    exists t ps pn r, In (t, ps) l /\ In (pn, r) ps /\ tpn_eqb (t, pn) tp = true.
  Proof. intros. eapply only_declared; eauto. Qed.

  (** A maker that hands back no dict fails the whole predicate, once. *)
  Theorem C54_maker_failure : forall l sch d rep t ps pn r kw m,
    wf_preds l -> consistent converted l -> find_rows l sch d PInf = Ret rep ->
    In (t, ps) l -> In (pn, r) ps -> kw_of (t, pn) r = Returned kw -> kw_message K kw = Some m ->
    dget tpn_eqb rep (t, pn) = Some (EAll m).
  Proof. intros. eapply maker_failure; eauto. Qed.

  (** Exceptions get out exactly when they are not handled. *)
  Theorem C54_raises : forall l sch d, consistent converted l -> wf_schema sch -> wf_dat sch d ->
    (forall t ps, In (t, ps) l -> exists ts, In (t, ts) sch) ->
    find_rows l sch d PInf = Raise <->
    exists t ts ps pn r, In (t, ts) sch /\ In (t, ps) l /\ In (pn, r) ps /\
      ((exists e, kw_of (t, pn) r = Raised e) \/
       (handled = false /\ exists k rid key row e, kw_of (t, pn) r = Returned (KDict k) /\
          row_in (d t) rid key row /\ call_pred (r_fn r) (row_dict ts key row) k = Raised e)).
  Proof. intros. apply raises; auto. Qed.

  Theorem C54_handled_never_raises : forall l sch d, handled = true -> consistent converted l ->
    exists rep, find_rows l sch d PInf = Ret rep.
  Proof. intros. apply handled_total; auto. Qed.

  (** C55: sharing makers between predicates makes no difference, unless a
      maker serves converted and unconverted predicates. *)
  Theorem C55_makers_not_mixed : forall l sch d rep t ps pn r,
    wf_preds l -> consistent converted l -> find_rows l sch d PInf = Ret rep -> In (t, ps) l -> In (pn, r) ps ->
    exists rep1, find_rows [(t, [(pn, r)])] sch d PInf = Ret rep1 /\
      dget tpn_eqb rep (t, pn) = dget tpn_eqb rep1 (t, pn).
  Proof. intros. eapply alone; eauto. Qed.

  (** C70: the bound. *)
  Theorem C70_bounded_report : forall l sch d mx n rep,
    wf_preds l -> consistent converted l -> num_ltb (of_int 0) mx = true -> rounds_up mx n ->
    find_rows l sch d PInf = Ret rep ->
    exists repm, find_rows l sch d mx = Ret repm /\ total repm = Nat.min n (total rep) /\
      forall tp e, dget tpn_eqb repm tp = Some e -> exists e', dget tpn_eqb rep tp = Some e' /\ part e e'.
  Proof. intros. eapply bounded; eauto. Qed.

  (** C72: PanDatFactory reports the same rows, raises in the same cases and
      stops at the same failure. *)
  Theorem C72_pandat_same_report : forall l sch d mx,
    wf_preds l -> (forall t ps pn r, In (t, ps) l -> In (pn, r) ps -> responds r) ->
    pan_find_rows l sch d mx = find_rows l sch d mx.
  Proof. intros. apply pan_same; auto. Qed.
End Any.
Print Assumptions C54_failures_exact.
Print Assumptions C54_no_repeats.
Print Assumptions C54_only_declared.
Print Assumptions C54_maker_failure.
Print Assumptions C54_raises.
Print Assumptions C54_handled_never_raises.
Print Assumptions C55_makers_not_mixed.
Print Assumptions C70_bounded_report.
Print Assumptions C72_pandat_same_report.

(** Three predicates on one table (one with keyword arguments from a maker, one
    with messages and an exception, one whose maker raises) and one on another. *)
Example C54_ex :
  exists rep, rw_find true rw_preds rw_sch rw_dat PInf = Ret rep /\
  wf_preds rw_preds /\ wf_schema rw_sch /\ wf_dat rw_sch rw_dat /\
  rep = [(("t", VStr "p"), ERows [(RPk [VStr "b"], None)]);
         (("t", VStr "q"), ERows [(RPk [VStr "b"], Some "negative"); (RPk [VStr "c"], Some "Exception<boom>")]);
         (("t", VStr "r"), EAll "Exception<bad maker>");
         (("u", VStr "p"), ERows [(RIdx 0, None)])] /\
  rw_find false rw_preds rw_sch rw_dat PInf = Raise.
Proof.
  eexists. split; [vm_compute; reflexivity|]. split; [exact rw_wf|].
  split; [apply wf_schema_ok; vm_compute; reflexivity|].
  split; [apply wf_dat_ok; vm_compute; reflexivity|]. split; [reflexivity|vm_compute; reflexivity].
Qed.

Example C70_ex :
  rw_find true rw_preds rw_sch rw_dat (of_int 3) =
  Ret [(("t", VStr "p"), ERows [(RPk [VStr "b"], None)]);
       (("t", VStr "q"), ERows [(RPk [VStr "b"], Some "negative"); (RPk [VStr "c"], Some "Exception<boom>")])] /\
  rw_find true rw_preds rw_sch rw_dat (of_int 2) =
  Ret [(("t", VStr "p"), ERows [(RPk [VStr "b"], None)]); (("t", VStr "q"), ERows [(RPk [VStr "b"], Some "negative")])].
Proof. split; vm_compute; reflexivity. Qed.

Example C72_ex :
  (forall t ps pn r, In (t, ps) rw_preds -> In (pn, r) ps -> responds r) /\
  rw_pan true rw_preds rw_sch rw_dat (of_int 2) =
  Ret [(("t", VStr "p"), ERows [(RPk [VStr "b"], None)]); (("t", VStr "q"), ERows [(RPk [VStr "b"], Some "negative")])].
Proof. split; [exact rw_responds|vm_compute; reflexivity]. Qed.

(** C55, C69: convert_dat.  [cv_g] is a clone made with convert_dat; its
    predicates with a maker are converted. *)
Theorem C69_copied_predicates_converted : forall parses g t n p,
  reachable parses g -> shown_pred g t n = Some p ->
  (is_converted (Some (clone_convset g)) (t, n) = true <-> exists m, p_maker p = Some m).
Proof. intros parses g t n p H. apply clone_convset_iff with (parses := parses). now apply reachable_inv. Qed.
Print Assumptions C69_copied_predicates_converted.

Theorem C69_new_names_not_converted : forall parses g t n,
  reachable parses g -> shown_pred g t n = None -> is_converted (Some (clone_convset g)) (t, n) = false.
Proof. intros parses g t n H. apply clone_convset_absent with (parses := parses). now apply reachable_inv. Qed.
Print Assumptions C69_new_names_not_converted.

Example C69_ex : reachable np cv_f /\ shown_pred cv_f "t" (VStr "p") = Some (mkPred 0 (Some 0) "Boolean") /\
  is_converted (Some (clone_convset cv_f)) ("t", VStr "p") = true /\
  is_converted (Some (clone_convset cv_f)) ("t", VStr "q") = false.
Proof. split; [exact cv_reach|]. vm_compute. auto. Qed.

(** "... and not to row predicates added subsequently": a predicate added after
    the clone under a copied predicate's name is converted all the same.  On
    the dat itself (here 2) no row fails the new predicate. *)
Theorem C69_added_predicate_converted_refuted : exists f g h rep,
  reachable np f /\ clone np f (f_decl f) None = Some g /\
  add_pred g "t" (Some (mkPred 0 (Some 0) "Boolean")) (VStr "p") = Some h /\
  (forall rid key row, row_in (cv_dat "t") rid key row ->
     rw_pred 0 (row_dict (mkT ["k"] ["v"]) key row) 2 = Returned (VBool true)) /\
  rw_maker 0 2 = Returned (KDict 2) /\
  find_rows nat nat 0 rw_pred rw_maker (Returned (inl 100)) (is_converted (Some (clone_convset g))) 2 rw_show
    (good_parameter np h) false (all_preds h) cv_sch cv_dat PInf = Ret rep /\
  listed rep ("t", VStr "p") (RPk [VStr "a"]) None.
Proof.
  exists cv_f, cv_g, cv_h'. eexists. split; [exact cv_reach|]. split; [exact cv_clone|]. split; [exact cv_step'|].
  split.
  { intros rid key row [[[= <- <-]|[]] _]. vm_compute. reflexivity. }
  split; [reflexivity|]. split; [vm_compute; reflexivity|].
  eexists. split; [reflexivity|now left].
Qed.
Print Assumptions C69_added_predicate_converted_refuted.

(** A maker shared by a copied predicate and a new one is called on the
    converted dat only, so the new predicate gets arguments made from the
    wrong dat. *)
Theorem C55_shared_maker_refuted : exists f g h rep,
  reachable np f /\ clone np f (f_decl f) None = Some g /\
  add_pred g "t" (Some (mkPred 0 (Some 0) "Boolean")) (VStr "q") = Some h /\
  is_converted (Some (clone_convset g)) ("t", VStr "q") = false /\
  (forall rid key row, row_in (cv_dat "t") rid key row ->
     rw_pred 0 (row_dict (mkT ["k"] ["v"]) key row) 2 = Returned (VBool true)) /\
  rw_maker 0 2 = Returned (KDict 2) /\
  find_rows nat nat 0 rw_pred rw_maker (Returned (inl 100)) (is_converted (Some (clone_convset g))) 2 rw_show
    (good_parameter np h) false (all_preds h) cv_sch cv_dat PInf = Ret rep /\
  listed rep ("t", VStr "q") (RPk [VStr "a"]) None.
Proof.
  exists cv_f, cv_g, cv_h. eexists. split; [exact cv_reach|]. split; [exact cv_clone|]. split; [exact cv_step|].
  split; [vm_compute; reflexivity|]. split.
  { intros rid key row [[[= <- <-]|[]] _]. vm_compute. reflexivity. }
  split; [reflexivity|]. split; [vm_compute; reflexivity|].
  eexists. split; [reflexivity|now left].
Qed.
Print Assumptions C55_shared_maker_refuted.

(** C71: the parameters table is checked under a name of its own. *)
Theorem C71_parameters_checked :
  forall K D no_kw pred maker convert converted self show parses f handled d rep,
  reachable parses f -> f_params f <> [] -> consistent converted (all_preds f) ->
  find_rows K D no_kw pred maker convert converted self show (good_parameter parses f) handled
    (all_preds f) (plain_schema f) d PInf = Ret rep ->
  exists pn p x, shown_pred f "parameters" pn = None /\
    decl_of (f_decl f) "parameters" = Some (Fields (mkT [p] [x])) /\
    (wf_table (mkT [p] [x]) (d "parameters") ->
     forall rid m, listed rep ("parameters", pn) rid m <->
       m = None /\ exists k r n v, row_in (d "parameters") rid k r /\ cell_in (mkT [p] [x]) k r p n /\
         cell_in (mkT [p] [x]) k r x v /\ bad_parameter parses f n v).
Proof. intros. eapply parameter_check; eauto. Qed.
Print Assumptions C71_parameters_checked.

(** The client's own predicates are run as well, and no other. *)
Theorem C71_client_predicates_run : forall parses f t n p,
  reachable parses f -> shown_pred f t n = Some p ->
  dget pyeq (dget_or String.eqb (all_preds f) t []) n = Some (mkRpi (PUser (p_fn p)) (p_maker p) (p_resp p)).
Proof. exact client_run. Qed.
Print Assumptions C71_client_predicates_run.

Theorem C71_predicates_well_formed : forall parses f, reachable parses f ->
  wf_preds (all_preds f) /\ forall t ps pn r, In (t, ps) (all_preds f) -> In (pn, r) ps -> responds r.
Proof. intros parses f H. apply all_preds_good with (parses := parses). now apply reachable_inv. Qed.
Print Assumptions C71_predicates_well_formed.

(** A negative size, a fine name, a misspelt name; the client has a predicate of
    the check's name. *)
Example C71_ex :
  reachable np pm_f /\ f_params pm_f <> [] /\ wf_table (mkT ["k"] ["v"]) (pm_dat "parameters") /\
  exists rep, pm_find (all_preds pm_f) (plain_schema pm_f) pm_dat PInf = Ret rep /\
  dget tpn_eqb rep ("parameters", VStr "Good Name/Value Check_0") =
    Some (ERows [(RPk [VStr "size"], None); (RPk [VStr "nome"], None)]).
Proof.
  split; [apply the_reachable; vm_compute; discriminate|]. split; [vm_compute; discriminate|].
  split; [apply wf_table_ok; vm_compute; reflexivity|].
  eexists. split; vm_compute; reflexivity.
Qed.

(** C59: faster_df_apply. *)
Theorem C59_one_result_per_row : forall R X S (func : R -> called X) (rows : list R) (st : S) w,
  fst (df_apply func None rows st) = Returned w <-> Forall2 (fun r x => func r = Returned x) rows w.
Proof. intros R X S func rows st w. apply df_apply_plain. Qed.
Print Assumptions C59_one_result_per_row.

Theorem C59_raises_with_the_function : forall R X S (func : R -> called X) (rows : list R) (st : S),
  (exists m, fst (df_apply func None rows st) = Raised m) <-> exists r m, In r rows /\ func r = Raised m.
Proof. intros R X S func rows st. apply df_apply_plain. Qed.
Print Assumptions C59_raises_with_the_function.

(** [ws] are the results before the check answers with [g] on [x]; the states
    of the check are threaded through. *)
Theorem C59_trip_wire : forall R X St (func g : R -> called X) (c : X -> St -> St * option (R -> called X))
    pre r post ws x w st st1,
  Forall2 (fun r x => func r = Returned x) pre ws -> func r = Returned x -> Forall2 (fun r x => g r = Returned x) post w ->
  fold_left (fun s y => fst (c y s)) ws st = st1 ->
  (forall k y, nth_error ws k = Some y -> snd (c y (fold_left (fun s y => fst (c y s)) (firstn k ws) st)) = None) ->
  snd (c x st1) = Some g ->
  df_apply func (Some c) (pre ++ r :: post) st = (Returned (ws ++ x :: w), fst (c x st1)).
Proof. intros R X St func g c pre r post ws x w st st1. apply df_apply_trip. Qed.
Print Assumptions C59_trip_wire.

(** A check that never answers changes nothing but its own state. *)
Theorem C59_quiet_wire : forall R X St (func : R -> called X) (c : X -> St -> St * option (R -> called X)) rows w st,
  Forall2 (fun r x => func r = Returned x) rows w ->
  (forall k y, nth_error w k = Some y -> snd (c y (fold_left (fun s y => fst (c y s)) (firstn k w) st)) = None) ->
  df_apply func (Some c) rows st = (Returned w, fold_left (fun s y => fst (c y s)) w st).
Proof. intros R X St func c rows w st. apply df_apply_quiet. Qed.
Print Assumptions C59_quiet_wire.

(** Doubling, with the third result beyond 5 replaced from then on. *)
Example C59_ex :
  df_apply (fun n => Returned (n + n))
    (Some (fun x c => if Nat.leb 5 x then (S c, if Nat.leb 2 (S c) then Some (fun _ : nat => Returned 0) else None) else (c, None)))
    [1; 3; 2; 4; 5; 6] 0 = (Returned [2; 6; 4; 8; 0; 0], 2).
Proof. reflexivity. Qed.
