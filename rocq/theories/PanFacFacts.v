(** * PanDatFactory: the projection to the TicDatFactory machine, and what follows from it. *)
From Coq Require Import ZArith Bool List String Ascii Arith Lia Permutation.
From Verif Require Import PyVal PyValFacts PyDict PyDictFacts PyStr ListFacts TypeDict TypeDictFacts Data
  FindTypes FindTypesFacts FK FKFacts ImpliedFacts WfCheck GraphFacts Factory FactoryFacts FactoryMore FactoryClone
  FactoryEdit FactoryColumns FactoryRename FactoryHist FactoryWitness PanFac.
Import ListNotations.
Local Open Scope string_scope.
Local Open Scope list_scope.

(** ** Specification vocabulary *)

(** A PanDatFactory obtained from the constructor by any calls (raising ones included). *)
Definition pan_reachable (parses : value -> bool) (f : factory) : Prop :=
  exists decls f0 ops, init decls = Some f0 /\ f = pan_run parses f0 ops.

(** The calls made with, for each, whether it raised. *)
Fixpoint pan_history (parses : value -> bool) (f : factory) (ops : list op) : list (op * bool) :=
  match ops with
  | [] => []
  | o :: ops' => (o, snd (pan_step parses f o)) :: pan_history parses (fst (pan_step parses f o)) ops'
  end.

(** The predicate travels to a factory of the other kind. *)
Definition travels (conv : bool) (p : rpred) : Prop := conv = true \/ p_maker p = None.

(** ** Projection *)

Definition strip (f : factory) : factory := with_preds f [].

Definition quiet (o : op) : bool :=
  match o with OPred _ _ _ | OSetDefaults _ | OSetGens _ | OImplied _ | OLinks | OUse => false | _ => true end.

Definition pan_preds_ok (d : list (string * tdecl)) (ps : list (string * list (value * rpred))) : Prop :=
  NoDup (map fst ps) /\ forall t l, In (t, l) ps -> decl_of d t <> None /\ keys_distinct pyeq (map fst l) /\
    forall n p, In (n, p) l -> n <> VNone /\ In (p_resp p) ["Boolean"; "Error Message"].

Lemma strip_preds : forall g p, f_preds g = [] -> strip (with_preds g p) = g.
Proof. intros [] p H. cbn in *. subst. reflexivity. Qed.

Section Facts.
  Variable parses : value -> bool.
  Notation step := (step parses).
  Notation exec := (exec parses).
  Notation pan_step := (pan_step parses).
  Notation pan_exec := (pan_exec parses).
  Notation pan_run := (pan_run parses).
  Notation inv := (inv parses).

  Lemma quiet_pan : forall f o, quiet o = true -> pan_step f o = step f o.
  Proof. intros f [] H; try discriminate; reflexivity. Qed.

  Lemma quiet_pan_exec : forall ops f, forallb quiet ops = true -> pan_exec f ops = exec f ops.
  Proof.
    induction ops as [| o ops IH]; intros f H; cbn [PanFac.pan_exec Factory.exec]; auto.
    cbn [forallb] in H. apply andb_true_iff in H as [H1 H2]. rewrite quiet_pan by auto.
    destruct (step f o) as [g []]; auto.
  Qed.

  (** Predicates, generators, links are out of reach of the quiet calls. *)
  Lemma quiet_step_preds : forall f o p, quiet o = true ->
    step (with_preds f p) o = (with_preds (fst (step f o)) p, snd (step f o)).
  Proof.
    intros f o p H. destruct f. destruct o; try discriminate; cbn.
    - unfold set_data_type. cbn. destruct (_ && _); auto. now destruct (safe_creator d).
    - unfold clear_data_type. cbn. destruct (dmem _ _ _); auto. cbn. now destruct f_used.
    - unfold add_parameter. cbn. destruct (_ && _); auto. destruct b; auto. destruct (safe_creator d); auto.
      now destruct (valid_data _ _ _).
    - unfold remove_parameter. cbn. now destruct (dmem _ _ _).
    - unfold set_default. cbn. now destruct (_ && _).
    - unfold clear_fks. cbn. destruct f_used; auto. destruct o; auto. now destruct (is_table _ _).
    - unfold add_fk. cbn. destruct (_ && _); auto. destruct (mapping_of f); auto. now destruct (forallb _ _).
    - unfold set_tip. cbn. now destruct (_ && _).
    - now destruct (good_flag v).
    - now destruct (good_xlsx v).
    - now destruct (good_dup v).
    - now destruct (good_auto v).
  Qed.

  Lemma quiet_step_keeps : forall f o, quiet o = true ->
    f_preds (fst (step f o)) = f_preds f /\ f_gens (fst (step f o)) = f_gens f /\
    f_links (fst (step f o)) = f_links f /\ f_used (fst (step f o)) = f_used f /\
    f_decl (fst (step f o)) = f_decl f.
  Proof.
    intros f o H. destruct o; try discriminate; cbn.
    - unfold set_data_type. destruct (_ && _); auto. destruct (safe_creator d); cbn; auto.
    - unfold clear_data_type. destruct (dmem _ _ _); cbn; auto. destruct (f_used f) eqn:E; cbn; auto.
    - unfold add_parameter. destruct (_ && _); auto. destruct b; cbn; auto. destruct (safe_creator d); auto.
      destruct (valid_data _ _ _); cbn; auto.
    - unfold remove_parameter. destruct (dmem _ _ _); cbn; auto.
    - unfold set_default. destruct (_ && _); cbn; auto.
    - unfold clear_fks. destruct (f_used f) eqn:E; auto. destruct o; cbn; auto. destruct (is_table _ _); cbn; auto.
    - unfold add_fk. destruct (_ && _); auto. destruct (mapping_of f0); auto. destruct (forallb _ _); cbn; auto.
    - unfold set_tip. destruct (_ && _); cbn; auto.
    - destruct (good_flag v); cbn; auto.
    - destruct (good_xlsx v); cbn; auto.
    - destruct (good_dup v); cbn; auto.
    - destruct (good_auto v); cbn; auto.
  Qed.

  Lemma quiet_exec_preds : forall ops f p, forallb quiet ops = true ->
    exec (with_preds f p) ops = option_map (fun g => with_preds g p) (exec f ops).
  Proof.
    induction ops as [| o ops IH]; intros f p H; cbn [Factory.exec]; auto.
    cbn [forallb] in H. apply andb_true_iff in H as [H1 H2]. rewrite quiet_step_preds by auto.
    destruct (step f o) as [g []]; cbn [fst snd]; auto.
  Qed.

  Lemma quiet_exec_keeps : forall ops f g, forallb quiet ops = true -> exec f ops = Some g ->
    f_preds g = f_preds f /\ f_gens g = f_gens f /\ f_links g = f_links f /\ f_used g = f_used f /\ f_decl g = f_decl f.
  Proof.
    induction ops as [| o ops IH]; intros f g H E; cbn [Factory.exec] in E; [injection E as <-; auto |].
    cbn [forallb] in H. apply andb_true_iff in H as [H1 H2].
    pose proof (quiet_step_keeps f o H1) as (A & B & C & D & F). destruct (step f o) as [h []]; [discriminate |].
    cbn [fst] in *. destruct (IH _ _ H2 E) as (A' & B' & C' & D' & F').
    repeat split; congruence.
  Qed.

  Lemma create_ops_quiet : forall s, forallb quiet (create_ops s) = true.
  Proof.
    intros s. unfold create_ops. rewrite !forallb_app, !nested_ops_map.
    assert (forall A (h : A -> op) l, (forall a, quiet (h a) = true) -> forallb quiet (map h l) = true) as Hm.
    { intros A h l Hh. apply forallb_forall. intros o Ho. apply in_map_iff in Ho as (a & <- & _). auto. }
    rewrite !Hm; auto. intros p. unfold param_op. now destruct (fst (snd p)).
  Qed.

  Lemma pan_create_eq : forall s, pan_create parses s = create parses s.
  Proof.
    intros s. unfold pan_create, create. destruct (param_names_ok s); auto. destruct (init (s_tables s)); auto.
    apply quiet_pan_exec, create_ops_quiet.
  Qed.

  Lemma init_start : forall d f, init d = Some f ->
    f_preds f = [] /\ f_gens f = [] /\ f_links f = false /\ f_used f = false /\ f_fks f = [] /\ f_decl f = d.
  Proof. intros d f H. unfold init in H. destruct (decl_ok d); [| discriminate]. injection H as <-. cbn. repeat split. Qed.

  Lemma create_start : forall s g, create parses s = Some g ->
    f_preds g = [] /\ f_gens g = [] /\ f_links g = false /\ f_used g = false.
  Proof.
    intros s g H. unfold create in H. destruct (param_names_ok s); [| discriminate].
    destruct (init (s_tables s)) as [f |] eqn:E; [| discriminate]. apply init_start in E as (A & B & C & D & _).
    apply quiet_exec_keeps in H as (A' & B' & C' & D' & _); [| apply create_ops_quiet]. repeat split; congruence.
  Qed.

  (** *** Every PanDatFactory is, predicates aside, a TicDatFactory *)

  Lemma pan_exec_app : forall a b f, pan_exec f (a ++ b) = match pan_exec f a with Some g => pan_exec g b | None => None end.
  Proof.
    induction a as [| o a IH]; intros b f; cbn [app PanFac.pan_exec]; auto. destruct (pan_step f o) as [g []]; auto.
  Qed.

  Lemma pan_exec_run : forall ops f g, pan_exec f ops = Some g -> g = pan_run f ops.
  Proof.
    induction ops as [| o ops IH]; intros f g H; cbn [PanFac.pan_exec] in H; [now injection H |].
    destruct (pan_step f o) as [h []] eqn:E; [discriminate |]. unfold PanFac.pan_run. cbn [fold_left]. rewrite E. cbn [fst].
    now apply IH.
  Qed.

  Lemma pan_reachable_exec : forall f g ops, pan_reachable parses f -> pan_exec f ops = Some g -> pan_reachable parses g.
  Proof.
    intros f g ops (d & f0 & ops0 & Hi & ->) H. apply pan_exec_run in H. exists d, f0, (ops0 ++ ops).
    split; auto. unfold PanFac.pan_run in *. now rewrite fold_left_app.
  Qed.

  Lemma pan_reachable_step : forall f o, pan_reachable parses f -> pan_reachable parses (fst (pan_step f o)).
  Proof.
    intros f o (d & f0 & ops0 & Hi & ->). exists d, f0, (ops0 ++ [o]). split; auto.
    unfold PanFac.pan_run. now rewrite fold_left_app.
  Qed.

  Lemma pan_create_reachable : forall s g, pan_create parses s = Some g -> pan_reachable parses g.
  Proof.
    intros s g H. unfold pan_create in H. destruct (param_names_ok s); [| discriminate].
    destruct (init (s_tables s)) as [f |] eqn:E; [| discriminate].
    eapply pan_reachable_exec; [| exact H]. exists (s_tables s), f, []. auto.
  Qed.

  Lemma pan_clone_with_reachable : forall f tables keep edit g, pan_clone_with parses f tables keep edit = Some g ->
    pan_reachable parses g.
  Proof.
    intros f tables keep edit g H. unfold pan_clone_with in H. destruct (restrict _ _ _) as [s |]; [| discriminate].
    destruct (edit s) as [s' |]; [| discriminate]. destruct (pan_create parses s') as [h |] eqn:E; [| discriminate].
    eapply pan_reachable_exec; [| exact H]. now apply pan_create_reachable in E.
  Qed.

  (** [set_default_values] as single assignments. *)
  Definition assign (f : factory) (l : list ((string * string) * value)) : factory :=
    with_defaults f (set_all (f_defaults f) l).

  Lemma assign_app : forall f a b, assign (assign f a) b = assign f (a ++ b).
  Proof. intros f a b. unfold assign, set_all. cbn [f_defaults with_defaults]. rewrite fold_left_app. reflexivity. Qed.
  Lemma assign_nil : forall f, assign f [] = f.
  Proof. intros []. reflexivity. Qed.

  Definition assignable (f : factory) (kv : (string * string) * value) : Prop :=
    field_of (f_decl f) (fst (fst kv)) (snd (fst kv)) /\ acceptable_default (snd kv) = true.

  Lemma set_default_assign : forall f t x v g, set_default f t x v = Some g ->
    g = assign f [((t, x), v)] /\ assignable f ((t, x), v).
  Proof.
    intros f t x v g H. unfold set_default in H. destruct (_ && _) eqn:E in H; [| discriminate]. injection H as <-.
    repeat rewrite andb_true_iff in E. destruct E as [[_ E1] E2]. split; [reflexivity |]. split; auto.
    now apply has_field_iff.
  Qed.

  Lemma inner_assign : forall t l0 f, exists a b,
    map (fun xv => ((t, fst xv), snd xv)) l0 = a ++ b /\
    fst (for_each (fun xv g => or_raise g (set_default g t (fst xv) (snd xv))) l0 f) = assign f a /\
    (forall kv, In kv a -> assignable f kv) /\
    (snd (for_each (fun xv g => or_raise g (set_default g t (fst xv) (snd xv))) l0 f) = false -> b = []).
  Proof.
    intros t l0. induction l0 as [| [x v] l0 IH]; intros f; cbn [for_each map].
    - exists [], []. rewrite assign_nil. split; [reflexivity |]. split; [reflexivity |]. split; [intros kv [] | auto].
    - cbn [fst snd]. destruct (set_default f t x v) as [g |] eqn:E; cbn [or_raise].
      + apply set_default_assign in E as [-> Ha]. destruct (IH (assign f [((t, x), v)])) as (a & b & E1 & E2 & E3 & E4).
        exists (((t, x), v) :: a), b. rewrite E1. split; [reflexivity |]. rewrite E2, assign_app. split; [reflexivity |].
        split; auto. intros kv [<- | Hin]; auto. now apply E3 in Hin.
      + exists [], (((t, x), v) :: map (fun xv => ((t, fst xv), snd xv)) l0). rewrite assign_nil.
        split; [reflexivity |]. split; [reflexivity |]. split; [intros kv [] |]. cbn. discriminate.
  Qed.

  Lemma pan_defaults_assign : forall l f, exists a b, flat l = a ++ b /\
    fst (pan_set_defaults f l) = assign f a /\ (forall kv, In kv a -> assignable f kv) /\
    (snd (pan_set_defaults f l) = false -> b = []) /\ (f_used f = true -> a = []).
  Proof.
    intros l f. unfold pan_set_defaults. destruct (f_used f) eqn:Eu.
    - exists [], (flat l). rewrite assign_nil. split; [reflexivity |]. split; [reflexivity |]. split; [intros kv [] |].
      split; [discriminate | reflexivity].
    - enough (exists a b, flat l = a ++ b /\ fst (for_each pan_table_defaults l f) = assign f a /\
        (forall kv, In kv a -> assignable f kv) /\ (snd (for_each pan_table_defaults l f) = false -> b = [])) as (a & b & E).
      { exists a, b. destruct E as (E1 & E2 & E3 & E4). split; [auto |]. split; [auto |]. split; [auto |].
        split; [auto | discriminate]. }
      clear Eu. revert f. induction l as [| [t l0] l IH]; intros f; cbn [for_each].
      + exists [], []. rewrite assign_nil. split; [reflexivity |]. split; [reflexivity |]. split; [intros kv [] | auto].
      + unfold pan_table_defaults at 1 3. cbn [fst snd]. destruct (_ && _).
        * destruct (inner_assign t l0 f) as (a & b & E1 & E2 & E3 & E4). unfold flat. cbn [flat_map fst snd]. rewrite E1.
          destruct (for_each _ l0 f) as [g []] eqn:Ef; cbn [fst snd] in *.
          -- exists a, (b ++ flat l). rewrite app_assoc. split; [reflexivity |]. split; auto. split; auto. discriminate.
          -- subst g. rewrite E4 by auto. rewrite app_nil_r. destruct (IH (assign f a)) as (a' & b' & F1 & F2 & F3 & F4).
             exists (a ++ a'), b'. fold (flat l). rewrite F1, app_assoc. split; [reflexivity |].
             rewrite F2, assign_app. split; [reflexivity |]. split; auto.
             intros kv Hin. apply in_app_iff in Hin as [Hin | Hin]; auto. now apply F3 in Hin.
        * exists [], (flat ((t, l0) :: l)). rewrite assign_nil. split; [reflexivity |]. split; [reflexivity |].
          split; [intros kv [] | discriminate].
  Qed.

  (** A list of assignments as calls. *)
  Lemma assign_exec : forall l f, f_used f = false -> (forall kv, In kv l -> assignable f kv) ->
    exec f (map (fun kv => OSetDefault (fst (fst kv)) (snd (fst kv)) (snd kv)) l) = Some (assign f l).
  Proof.
    induction l as [| [[t x] v] l IH]; intros f Hu H; cbn [map Factory.exec]; [now rewrite assign_nil |].
    cbn [fst snd Factory.step]. unfold set_default. destruct (H _ (or_introl eq_refl)) as [H1 H2]. cbn [fst snd] in *.
    pose proof H1 as (ts & Ht & _). destruct (plain_table f _ _ Ht) as [P1 _]. apply has_field_iff in H1.
    rewrite Hu, P1, H1, H2. cbn [negb andb or_raise].
    change (with_defaults f (dset2 (f_defaults f) t x v)) with (assign f [((t, x), v)]).
    rewrite IH; [now rewrite assign_app | auto |]. intros kv Hin. apply (H kv). now right.
  Qed.

  (** *** Predicates *)

  Lemma pan_preds_get : forall d ps t, pan_preds_ok d ps ->
    keys_distinct pyeq (map fst (dget_or String.eqb ps t [])) /\
    forall n p, In (n, p) (dget_or String.eqb ps t []) -> n <> VNone /\ In (p_resp p) ["Boolean"; "Error Message"].
  Proof.
    intros d ps t [H1 H2]. unfold dget_or. destruct (dget String.eqb ps t) as [l |] eqn:E.
    - apply dget_In_NoDup in E; auto. apply H2 in E. tauto.
    - split; [exact I | intros n p []].
  Qed.

  Lemma pan_preds_set : forall d ps t l, pan_preds_ok d ps -> decl_of d t <> None ->
    keys_distinct pyeq (map fst l) ->
    (forall n p, In (n, p) l -> n <> VNone /\ In (p_resp p) ["Boolean"; "Error Message"]) ->
    pan_preds_ok d (dset String.eqb ps t l).
  Proof.
    intros d ps t l [H1 H2] Ht Hk Hl. split; [now apply dset_NoDup |].
    intros t' l' Hin. apply dset_In in Hin as [[-> ->] | Hin]; auto.
  Qed.

  Lemma dict_of_nonempty : forall (l : list (string * string)), l <> [] -> dict_of String.eqb l <> [].
  Proof.
    intros [| [a b] l] H; [congruence |]. intros E.
    assert (dget String.eqb (dict_of String.eqb ((a, b) :: l)) a <> None) as Hd; [| now rewrite E in Hd].
    unfold dict_of, dupdate. cbn [fold_left fst snd]. clear H E.
    assert (dget String.eqb (dset String.eqb [] a b) a <> None) as H by (cbn; rewrite String.eqb_refl; discriminate).
    revert H. generalize (dset String.eqb [] a b). induction l as [| [c d] l IH]; intros acc H; cbn [fold_left]; auto.
    apply IH. rewrite sget_dset. cbn [fst]. destruct (String.eqb c a); [discriminate | auto].
  Qed.

  Lemma mapping_nonempty : forall m l, mapping_of m = Some l -> l <> [].
  Proof.
    intros [a b | [| p l0]] l H; cbn [mapping_of] in H; try discriminate; injection H as <-; [discriminate |].
    now apply dict_of_nonempty.
  Qed.

  Lemma quiet_step_fks : forall f o k, quiet o = true -> In k (f_fks (fst (step f o))) -> In k (f_fks f) \/ fk_map k <> [].
  Proof.
    intros f o k H. destruct o; try discriminate; cbn [Factory.step].
    - unfold set_data_type. destruct (_ && _); auto. destruct (safe_creator d); cbn; auto.
    - unfold clear_data_type. destruct (dmem _ _ _); cbn; auto. destruct (f_used f) eqn:E; cbn; auto.
    - unfold add_parameter. destruct (_ && _); auto. destruct b; cbn; auto. destruct (safe_creator d); auto.
      destruct (valid_data _ _ _); cbn; auto.
    - unfold remove_parameter. destruct (dmem _ _ _); cbn; auto.
    - unfold set_default. destruct (_ && _); cbn; auto.
    - unfold clear_fks. destruct (f_used f) eqn:E; auto. destruct o; cbn; [| tauto]. destruct (is_table _ _); cbn; auto.
      intros Hin. apply filter_In in Hin. tauto.
    - unfold add_fk. destruct (_ && _); auto. destruct (mapping_of f0) as [l |] eqn:E; auto.
      destruct (forallb _ _); cbn; auto. intros Hin. unfold sadd in Hin. destruct (smem _ _ _); auto.
      apply in_app_iff in Hin as [Hin | [<- | []]]; auto. right. cbn. now apply mapping_nonempty in E.
    - unfold set_tip. destruct (_ && _); cbn; auto.
    - destruct (good_flag v); cbn; auto.
    - destruct (good_xlsx v); cbn; auto.
    - destruct (good_dup v); cbn; auto.
    - destruct (good_auto v); cbn; auto.
  Qed.

  Lemma add_pred_shape : forall f t p n g, pan_add_pred f t p n = Some g ->
    decl_of (f_decl f) t <> None /\ f_used f = false /\ exists ps, g = with_preds f ps /\
      (pan_preds_ok (f_decl f) (f_preds f) -> pan_preds_ok (f_decl f) ps).
  Proof.
    intros f t p n g H. unfold pan_add_pred in H. destruct (_ && _) eqn:Ec in H; [| discriminate].
    apply andb_true_iff in Ec as [Eu Et]. apply negb_true_iff in Eu. apply is_table_iff in Et. split; [auto |]. split; [auto |].
    destruct p as [p |].
    - destruct (mem_str (p_resp p) ["Boolean"; "Error Message"]) eqn:Em; [| discriminate]. apply mem_str_iff in Em.
      injection H as <-. eexists. split; [reflexivity |]. intros Hps. destruct (pan_preds_get _ _ t Hps) as [Hk Hl].
      apply pan_preds_set; auto.
      + apply (keys_distinct_dset pyeq). exact Hk.
      + intros m q Hin. apply dset_In_gen in Hin as [[-> [-> | [q0 Hin]]] | Hin]; auto.
        * split; auto. destruct n; try discriminate.
          destruct (fresh_name_spec (dget_or String.eqb (f_preds f) t [])) as (i & -> & _). discriminate.
        * split; auto. apply Hl in Hin. tauto.
    - destruct (dget String.eqb (f_preds f) t) as [l |] eqn:El; injection H as <-.
      + eexists. split; [reflexivity |]. intros Hps. destruct (pan_preds_get _ _ t Hps) as [Hk Hl].
        unfold dget_or in Hk, Hl. rewrite El in Hk, Hl. apply pan_preds_set; auto.
        * now apply (keys_distinct_ddel pyeq).
        * intros m q Hin. apply ddel_incl in Hin. auto.
      + exists (f_preds f). split; [destruct f; reflexivity | auto].
  Qed.

  Record pan_inv (f : factory) : Prop := mkPanInv {
    pi_strip : reachable parses (strip f);
    pi_preds : pan_preds_ok (f_decl f) (f_preds f);
    pi_gens : f_gens f = [];
    pi_links : f_links f = false;
    pi_fks : no_empty_fk f
  }.

  Lemma reachable_step : forall f o, reachable parses f -> reachable parses (fst (step f o)).
  Proof.
    intros f o (d & f0 & ops0 & Hi & ->). exists d, f0, (ops0 ++ [o]). split; auto. unfold run. now rewrite fold_left_app.
  Qed.

  Lemma pan_step_inv : forall f o, pan_inv f -> pan_inv (fst (pan_step f o)).
  Proof.
    intros f o H. pose proof H as []. destruct (quiet o) eqn:Eq.
    - rewrite quiet_pan by auto. pose proof (quiet_step_keeps f o Eq) as (A & B & C & D & E). constructor.
      + unfold strip. change (with_preds (fst (step f o)) []) with (fst (with_preds (fst (step f o)) [], snd (step f o))).
        rewrite <- quiet_step_preds by auto. now apply reachable_step.
      + now rewrite A, E.
      + congruence.
      + congruence.
      + intros k Hk. apply quiet_step_fks in Hk as [Hk | Hk]; auto.
    - destruct o; try discriminate Eq; cbn [PanFac.pan_step fst]; auto.
      + destruct (pan_add_pred f s o v) as [g |] eqn:E; cbn [or_raise fst]; auto.
        apply add_pred_shape in E as (_ & _ & ps & -> & Hps). constructor; cbn; auto.
      + destruct (pan_defaults_assign l f) as (a & b & E1 & E2 & E3 & E4 & E5). rewrite E2.
        destruct (f_used f) eqn:Eu.
        * rewrite E5 by auto. now rewrite assign_nil.
        * constructor; cbn; auto. change (strip (assign f a)) with (assign (strip f) a).
          eapply reachable_exec; [exact pi_strip0 |]. apply assign_exec; auto.
      + constructor; cbn; auto. change (strip (with_used f true)) with (fst (step (strip f) OUse)). now apply reachable_step.
  Qed.

  Lemma pan_reachable_inv : forall f, pan_reachable parses f -> pan_inv f.
  Proof.
    intros f (d & f0 & ops & Hi & ->). pose proof (init_start d f0 Hi) as (A & B & C & D & E & F).
    assert (pan_inv f0) as H0.
    { constructor; auto.
      - exists d, f0, []. split; auto. cbn. now destruct f0; cbn in *; subst.
      - rewrite A. split; [constructor | intros t l []].
      - intros k Hk. rewrite E in Hk. destruct Hk. }
    clear -H0. revert f0 H0. unfold PanFac.pan_run. induction ops as [| o ops IH]; intros f0 H0; cbn [fold_left]; auto.
    apply IH. now apply pan_step_inv.
  Qed.

  Lemma strip_inv : forall f, pan_inv f -> inv (strip f).
  Proof. intros f H. apply reachable_inv. apply (pi_strip _ H). Qed.

  (** *** Copying the predicates *)

  Lemma pan_pflat_get : forall d h ps t n, pan_preds_ok d ps ->
    last_bind tn_eqb (pflat h ps) (t, n) = if h t then pget ps t n else None.
  Proof.
    intros d h ps t n [H1 H2]. apply (pflat_get (map (fun tl => (fst tl, two_fields)) ps)). split; auto.
    intros t' l Hin. destruct (H2 _ _ Hin) as (_ & A & B). split; auto. exists (mkT ["k"] ["v"]).
    apply decl_of_In; [rewrite map_map; cbn; exact H1 |]. apply in_map_iff. exists (t', l). auto.
  Qed.

  Lemma pan_exec_map {A} (mk : A -> op) (upd : factory -> A -> factory) (P : factory -> Prop) : forall l f,
    P f -> (forall g a, In a l -> P g -> pan_step g (mk a) = (upd g a, false) /\ P (upd g a)) ->
    pan_exec f (map mk l) = Some (fold_left upd l f) /\ P (fold_left upd l f).
  Proof.
    induction l as [| a l IH]; intros f Hf H; cbn [map PanFac.pan_exec fold_left]; auto.
    destruct (H f a (or_introl eq_refl) Hf) as [E Hp]. rewrite E. apply IH; auto.
    intros g b Hb. apply H. now right.
  Qed.

  Lemma pflat_In : forall h ps t n p, In ((t, n), p) (pflat h ps) ->
    h t = true /\ exists l, In (t, l) ps /\ In (n, p) l.
  Proof.
    intros h ps t n p Hin. unfold pflat in Hin. apply in_flat_map in Hin as ([t1 l1] & Hl & Hq). cbn [fst snd] in Hq.
    destruct (h t1) eqn:Ek; [| destruct Hq]. apply in_map_iff in Hq as ([n' p'] & E & Hq).
    cbn [fst snd] in E. injection E as -> -> ->. split; eauto.
  Qed.

  Lemma pget_In : forall d ps t n p l, pan_preds_ok d ps -> In (t, l) ps -> In (n, p) l -> pget ps t n = Some p.
  Proof.
    intros d ps t n p l [H1 H2] Hl Hn. unfold pget, dget_or. pose proof (H2 _ _ Hl) as (_ & Hk & _).
    apply dget_In_NoDup in Hl; auto. rewrite Hl. apply (In_dget pyeq pyeq_refl); auto.
  Qed.

  Lemma attach_ok : forall d ps keep g, pan_preds_ok d ps -> f_used g = false -> f_preds g = [] ->
    (forall t n, keep_pred keep t = true -> pget ps t n <> None -> decl_of (f_decl g) t <> None) ->
    exists np, pan_exec g (pred_ops keep ps) = Some (with_preds g np) /\
      forall t n, pget np t n = if keep_pred keep t then pget ps t n else None.
  Proof.
    intros d ps keep g Hps Hu Hp Hdecl. rewrite pred_ops_map.
    destruct (pan_exec_map (fun q : (string * value) * rpred => OPred (fst (fst q)) (Some (snd q)) (snd (fst q)))
      (fun g q => with_preds g (pset (f_preds g) q))
      (fun h => f_decl h = f_decl g /\ f_used h = false)
      (pflat (keep_pred keep) ps) g) as [E _]; auto.
    - intros h [[t n] p] Hin (Hd & Hu'). split; [| auto]. apply pflat_In in Hin as [Hk (l & Hl & Hnp)].
      pose proof (pget_In _ _ _ _ _ _ Hps Hl Hnp) as Hsp. destruct Hps as [Hn Hps].
      destruct (Hps _ _ Hl) as (_ & _ & Hr). destruct (Hr _ _ Hnp) as [Hnn Hrs].
      assert (is_table h t = true) as A1 by (apply is_table_iff; rewrite Hd; apply (Hdecl t n Hk); rewrite Hsp; discriminate).
      cbn [fst snd PanFac.pan_step]. unfold pan_add_pred. rewrite Hu', A1. cbn [negb andb].
      apply mem_str_iff in Hrs. rewrite Hrs. unfold or_raise, pset. cbn [fst snd].
      destruct n; try reflexivity. congruence.
    - rewrite E, fold_with_preds, Hp. eexists. split; [reflexivity |].
      intros t n. rewrite pget_fold, (pan_pflat_get d) by auto.
      destruct (keep_pred keep t); auto. now destruct (pget ps t n).
  Qed.

  (** The same in a TicDatFactory, for plain tables. *)
  Lemma tic_attach_ok : forall d ps keep g, pan_preds_ok d ps -> f_used g = false -> f_preds g = [] -> f_gens g = [] ->
    (forall t n, keep_pred keep t = true -> pget ps t n <> None -> exists ts, decl_of (f_decl g) t = Some (Fields ts)) ->
    exists np, exec g (pred_ops keep ps) = Some (with_preds g np) /\
      forall t n, pget np t n = if keep_pred keep t then pget ps t n else None.
  Proof.
    intros d ps keep g Hps Hu Hp Hg Hdecl. destruct (attach_ok d ps keep g Hps Hu Hp) as (np & E & Hnp).
    { intros t n Hk Hn. destruct (Hdecl t n Hk Hn) as (ts & ->). discriminate. }
    exists np. split; auto. rewrite <- E. clear E Hnp np. rewrite pred_ops_map.
    assert (forall l h, f_decl h = f_decl g -> f_gens h = [] -> (forall q, In q l -> In q (pflat (keep_pred keep) ps)) ->
      exec h (map (fun q : (string * value) * rpred => OPred (fst (fst q)) (Some (snd q)) (snd (fst q))) l) =
      pan_exec h (map (fun q : (string * value) * rpred => OPred (fst (fst q)) (Some (snd q)) (snd (fst q))) l)) as Hl.
    { induction l as [| [[t n] p] l IH]; intros h Hd Hgn Hin; cbn [map Factory.exec PanFac.pan_exec]; auto.
      cbn [fst snd].
      assert (step h (OPred t (Some p) n) = pan_step h (OPred t (Some p) n)) as Es.
      { pose proof (Hin _ (or_introl eq_refl)) as Hq. apply pflat_In in Hq as [Hk (l0 & Hl0 & Hnp)].
        pose proof (pget_In _ _ _ _ _ _ Hps Hl0 Hnp) as Hsp.
        destruct (Hdecl t n Hk) as (ts & Hts); [rewrite Hsp; discriminate |]. rewrite <- Hd in Hts.
        destruct (plain_table h _ _ Hts) as [A1 A2].
        cbn [Factory.step PanFac.pan_step]. unfold add_pred, pan_add_pred. rewrite A1, A2, Hgn. cbn [mem_str existsb negb].
        now rewrite !andb_true_r. }
      rewrite Es. destruct (pan_step h (OPred t (Some p) n)) as [h' []] eqn:Eh; auto.
      cbn [PanFac.pan_step] in Eh. apply or_raise_false in Eh. apply add_pred_shape in Eh as (_ & _ & ps' & -> & _).
      apply IH; auto. intros q Hq. apply Hin. now right. }
    apply Hl; auto.
  Qed.

  (** *** Clones *)

  Lemma with_gens_same : forall g, f_gens g = [] -> with_gens g [] = g.
  Proof. intros [] H. cbn in *. now subst. Qed.

  (** [bare]: what [create_from_full_schema] can see of a factory. *)
  Definition bare (f : factory) : factory := with_links (with_gens (strip f) []) false.

  Lemma bare_clone : forall f tables keep edit,
    clone_with parses (bare f) tables keep edit =
    match restrict (schema_in_order f tables) keep None with
    | Some s => match edit s with Some s' => create parses s' | None => None end
    | None => None
    end.
  Proof.
    intros f tables keep edit. unfold clone_with.
    change (schema_in_order (bare f) tables) with (schema_in_order f tables).
    destruct (restrict _ _ _) as [s |]; auto. destruct (edit s) as [s' |]; auto.
    destruct (create parses s') as [g |] eqn:E; auto. cbn [bare f_gens f_preds f_links with_links with_gens strip with_preds].
    apply create_start in E as (A & B & C & D). cbn [pred_ops flat_map app Factory.exec Factory.step]. unfold set_gens.
    rewrite D. cbn. now rewrite with_gens_same.
  Qed.

  Lemma bare_strip : forall f, f_gens f = [] -> f_links f = false -> bare f = strip f.
  Proof. intros [] H1 H2. cbn in *. now subst. Qed.

  Lemma clone_start : forall f tables keep edit g, clone_with parses (bare f) tables keep edit = Some g ->
    f_preds g = [] /\ f_gens g = [] /\ f_links g = false /\ f_used g = false.
  Proof.
    intros f tables keep edit g H. rewrite bare_clone in H. destruct (restrict _ _ _) as [s |]; [| discriminate].
    destruct (edit s) as [s' |]; [| discriminate]. now apply create_start in H.
  Qed.

  Lemma pan_clone_eq : forall f tables keep edit,
    pan_clone_with parses f tables keep edit =
    match clone_with parses (bare f) tables keep edit with
    | Some g => pan_exec g (pred_ops keep (f_preds f))
    | None => None
    end.
  Proof.
    intros f tables keep edit. rewrite bare_clone. unfold pan_clone_with. destruct (restrict _ _ _) as [s |]; auto.
    destruct (edit s) as [s' |]; auto. now rewrite pan_create_eq.
  Qed.

  (** The predicates of a kept table arrive. *)
  Lemma pan_finish : forall f tables keep edit g, pan_inv f -> clone_with parses (strip f) tables keep edit = Some g ->
    (forall t n, keep_pred keep t = true -> shown_pred f t n <> None -> decl_of (f_decl g) t <> None) ->
    exists np, pan_clone_with parses f tables keep edit = Some (with_preds g np) /\ f_preds g = [] /\
      forall t n, shown_pred (with_preds g np) t n = if keep_pred keep t then shown_pred f t n else None.
  Proof.
    intros f tables keep edit g H E Hd. rewrite pan_clone_eq, bare_strip by apply H. rewrite E.
    rewrite <- bare_strip in E by apply H. apply clone_start in E as (A & B & C & D).
    destruct (attach_ok (f_decl f) (f_preds f) keep g (pi_preds _ H) D A Hd) as (np & En & Hn).
    exists np. split; [exact En |]. split; [exact A |]. exact Hn.
  Qed.

  Lemma shown_pred_table : forall f t n, pan_inv f -> shown_pred f t n <> None -> decl_of (f_decl f) t <> None.
  Proof.
    intros f t n H Hs. unfold shown_pred, dget_or in Hs. destruct (dget String.eqb (f_preds f) t) as [l |] eqn:E.
    - destruct (pi_preds _ H) as [H1 H2]. apply dget_In_NoDup in E; auto. now apply H2 in E.
    - now cbn in Hs.
  Qed.

  Lemma strip_clonable : forall f, pan_inv f -> string_params f -> clonable (strip f).
  Proof.
    intros f H Hs. split; [exact Hs |]. split; [exact (pi_fks _ H) |]. intros t n Hin. cbn in Hin.
    rewrite (pi_gens _ H) in Hin. destruct Hin.
  Qed.
End Facts.
