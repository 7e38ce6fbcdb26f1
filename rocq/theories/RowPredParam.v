(** * Row predicates: the check of the parameters table, and convert_dat. *)
From Coq Require Import ZArith Bool List String Arith Lia DecimalString DecimalNat.
From Verif Require Import PyVal PyValFacts PyDict PyDictFacts ListFacts TypeDict Data FindTypes FindTypesFacts FK FKFacts ReplaceFacts Factory
  FactoryFacts InfIO Params RowPred RowPredFacts RowPredMore RowPredPan.
Import ListNotations.
Local Open Scope string_scope.
Local Open Scope list_scope.

Lemma show_nat_inj i j : show_nat i = show_nat j -> i = j.
Proof.
  unfold show_nat. intros H.
  assert (Nat.to_uint i = Nat.to_uint j) as E.
  { pose proof (NilEmpty.usu (Nat.to_uint i)) as A. rewrite H, NilEmpty.usu in A. now injection A. }
  rewrite <- (Unsigned.of_to i), <- (Unsigned.of_to j). now rewrite E.
Qed.

Lemma append_inj (a b c : string) : (a ++ b = a ++ c -> b = c)%string.
Proof. induction a as [|x a IH]; cbn; auto. intros [= H]. auto. Qed.

Lemma fresh_check_spec d : exists s, fresh_check d = VStr s /\ dget pyeq d (VStr s) = None.
Proof.
  unfold fresh_check. destruct (dmem pyeq d (VStr check_name)) eqn:M.
  2: { exists check_name. split; auto. unfold dmem in M. now destruct (dget pyeq d (VStr check_name)). }
  set (nm := fun i => VStr (check_name ++ "_" ++ show_nat i)%string).
  set (h := fun i => negb (dmem pyeq d (nm i))).
  change (exists s, (match find h (seq 0 (S (List.length d))) with Some i => nm i | None => VNone end) = VStr s /\ dget pyeq d (VStr s) = None).
  destruct (find h (seq 0 (S (List.length d)))) as [i|] eqn:F.
  - apply find_some in F as [_ F]. exists (check_name ++ "_" ++ show_nat i)%string. split; auto.
    unfold h, dmem, nm in F. destruct (dget pyeq d _); [discriminate|auto].
  - exfalso. pose proof (find_none _ _ F) as Hn.
    assert (incl (map (fun i => canon (nm i)) (seq 0 (S (List.length d)))) (map (fun kv => canon (fst kv)) d)) as Hi.
    { intros c Hc. apply in_map_iff in Hc as (i & <- & Hi).
      specialize (Hn i Hi). unfold h, dmem in Hn. destruct (dget pyeq d (nm i)) as [v|] eqn:E; [|discriminate].
      apply dget_In in E as (k & E & Hin). apply pyeq_iff in E. rewrite <- E. apply in_map_iff. exists (k, v). auto. }
    apply NoDup_incl_length in Hi.
    + rewrite !map_length, seq_length in Hi. lia.
    + apply FinFun.Injective_map_NoDup; [|apply seq_NoDup]. intros i j H. unfold nm in H. cbn [canon] in H.
      assert (E : (check_name ++ "_" ++ show_nat i = check_name ++ "_" ++ show_nat j)%string) by congruence.
      apply append_inj, append_inj in E. now apply show_nat_inj.
Qed.

(** ** The predicates that are run *)

Definition as_rpi (p : rpred) : rpi := mkRpi (PUser (p_fn p)) (p_maker p) (p_resp p).

Definition user_preds (f : factory) : list (string * list (value * rpi)) :=
  map (fun tp => (fst tp, map (fun np => (fst np, as_rpi (snd np))) (snd tp))) (f_preds f).

Lemma user_get f t : dget String.eqb (user_preds f) t =
  option_map (map (fun np => (fst np, as_rpi (snd np)))) (dget String.eqb (f_preds f) t).
Proof.
  unfold user_preds. induction (f_preds f) as [|[t' l] q IH]; auto. cbn. destruct (String.eqb t' t); auto.
Qed.

Lemma user_get_or f t : dget_or String.eqb (user_preds f) t [] =
  map (fun np => (fst np, as_rpi (snd np))) (dget_or String.eqb (f_preds f) t []).
Proof. unfold dget_or. rewrite user_get. destruct (dget String.eqb (f_preds f) t); reflexivity. Qed.

Lemma map_get (l : list (value * rpred)) n :
  dget pyeq (map (fun np => (fst np, as_rpi (snd np))) l) n = option_map as_rpi (dget pyeq l n).
Proof. induction l as [|[k p] l IH]; auto. cbn. destruct (pyeq k n); auto. Qed.

(** What is run under a name: the client's predicate or the check. *)
Lemma all_get parses f t n : FactoryFacts.inv parses f ->
  dget pyeq (dget_or String.eqb (all_preds f) t []) n =
  if String.eqb "parameters" t && has_params f && pyeq (fresh_check (dget_or String.eqb (f_preds f) "parameters" [])) n
  then Some (mkRpi PParam None "Boolean")
  else option_map as_rpi (shown_pred f t n).
Proof.
  intros I. unfold all_preds. fold (user_preds f). unfold shown_pred.
  change (map (fun tp => (fst tp, map (fun np => (fst np, mkRpi (PUser (p_fn (snd np))) (p_maker (snd np)) (p_resp (snd np))))
                                        (snd tp))) (f_preds f)) with (user_preds f).
  destruct (has_params f) eqn:Hp.
  - unfold dget_or at 1. rewrite sget_dset. destruct (String.eqb_spec "parameters" t) as [<-|Hne]; cbn [andb].
    + rewrite pget_dset. destruct (pyeq (fresh_check _) n); auto.
      now rewrite user_get_or, map_get.
    + fold (dget_or String.eqb (user_preds f) t []). now rewrite user_get_or, map_get.
  - rewrite andb_false_r. cbn [andb]. now rewrite user_get_or, map_get.
Qed.

Lemma map_keys_distinct {A B C} (eqb : A -> A -> bool) (g : B -> C) (l : list (A * B)) :
  keys_distinct eqb (map fst l) -> keys_distinct eqb (map fst (map (fun np => (fst np, g (snd np))) l)).
Proof. intros H. rewrite map_map. cbn. exact H. Qed.

Lemma all_preds_good parses f : FactoryFacts.inv parses f ->
  wf_preds (all_preds f) /\ forall t ps pn r, In (t, ps) (all_preds f) -> In (pn, r) ps -> responds r.
Proof.
  intros I. destruct (inv_preds _ _ I) as [N Hl].
  assert (Nu : NoDup (map fst (user_preds f))) by (unfold user_preds; now rewrite map_map).
  assert (Hu : forall t ps, In (t, ps) (user_preds f) ->
            keys_distinct pyeq (map fst ps) /\ forall pn r, In (pn, r) ps -> responds r).
  { intros t ps H. unfold user_preds in H. apply in_map_iff in H as ([t' l] & E & H). injection E as <- <-.
    destruct (Hl _ _ H) as (_ & Hk & Hr). split; [now apply map_keys_distinct|].
    intros pn r Hin. apply in_map_iff in Hin as ([n p] & E & Hin). injection E as <- <-.
    destruct (Hr _ _ Hin) as [_ [E|[E|[]]]]; [left|right]; unfold as_rpi; now cbn. }
  unfold all_preds.
  change (map (fun tp => (fst tp, map (fun np => (fst np, mkRpi (PUser (p_fn (snd np))) (p_maker (snd np)) (p_resp (snd np))))
                                        (snd tp))) (f_preds f)) with (user_preds f).
  destruct (has_params f).
  2: { split; [split; auto; intros t ps H; now apply (Hu t ps)|]. intros t ps pn r H1 H2. exact (proj2 (Hu _ _ H1) _ _ H2). }
  set (old := dget_or String.eqb (user_preds f) "parameters" []).
  assert (Hold : keys_distinct pyeq (map fst old) /\ forall pn r, In (pn, r) old -> responds r).
  { unfold old, dget_or. destruct (dget String.eqb (user_preds f) "parameters") as [q|] eqn:E; [|split; [exact Logic.I|intros pn r []]].
    apply dget_In in E as (k & E & H). apply String.eqb_eq in E. subst k. now apply (Hu "parameters"). }
  assert (Hin : forall t ps q, In (t, ps) (dset String.eqb (user_preds f) "parameters" q) -> ps = q \/ In (t, ps) (user_preds f)).
  { intros t ps q. generalize (user_preds f) as u. induction u as [|[k v] u IH]; cbn.
    - intros [[= <- <-]|[]]. now left.
    - destruct (String.eqb k "parameters"); cbn.
      + intros [[= <- <-]|H]; auto.
      + intros [[= <- <-]|H]; auto. destruct (IH H); auto. }
  split; [split|].
  - apply (keys_distinct_NoDup String.eqb String.eqb_eq).
    apply (keys_distinct_dset String.eqb).
    now apply (keys_distinct_NoDup String.eqb String.eqb_eq).
  - intros t ps H. destruct (Hin _ _ _ H) as [->|H']; [|now apply (Hu t ps)].
    apply (keys_distinct_dset pyeq). now destruct Hold.
  - intros t ps pn r H1 H2. destruct (Hin _ _ _ H1) as [->|H']; [|exact (proj2 (Hu _ _ H') _ _ H2)].
    assert (Hr : r = mkRpi PParam None "Boolean" \/ In (pn, r) old \/ exists k, In (k, r) old).
    { revert H2. generalize old as u. induction u as [|[k v] u IH]; cbn.
      - intros [[= <- <-]|[]]. now left.
      - destruct (pyeq k _); cbn.
        + intros [[= <- <-]|H]; auto.
        + intros [[= <- <-]|H]; auto. destruct (IH H) as [A|[A|[k' A]]]; eauto. }
    destruct Hr as [->|[Hr|[k Hr]]]; [now left| |]; exact (proj2 Hold _ _ Hr).
Qed.

Lemma client_run parses f t n p : reachable parses f -> shown_pred f t n = Some p ->
  dget pyeq (dget_or String.eqb (all_preds f) t []) n = Some (mkRpi (PUser (p_fn p)) (p_maker p) (p_resp p)).
Proof.
  intros Hr H. pose proof (reachable_inv _ _ Hr) as I. rewrite (all_get parses) by exact I. rewrite H.
  destruct (String.eqb_spec "parameters" t) as [<-|]; auto. destruct (has_params f); auto. cbn [andb].
  destruct (fresh_check_spec (dget_or String.eqb (f_preds f) "parameters" [])) as (s & -> & Hs).
  destruct (pyeq (VStr s) n) eqn:E; auto. exfalso. unfold shown_pred in H.
  rewrite <- (dget_cong pyeq pyeq_sym pyeq_trans _ (VStr s) n E) in H. congruence.
Qed.

(** ** The check of the parameters table *)

Lemma ts_of_plain f t ts : NoDup (map fst (f_decl f)) -> decl_of (f_decl f) t = Some (Fields ts) -> ts_of (plain_schema f) t = ts.
Proof.
  unfold ts_of, plain_schema, decl_of, dget_or. induction (f_decl f) as [|[t' td] q IH]; intros N H; [discriminate|].
  cbn in *. inversion N as [|? ? Hn N']; subst. destruct (String.eqb t' t) eqn:E.
  - injection H as ->. cbn. now rewrite E.
  - destruct td; cbn; rewrite ?E; now apply IH.
Qed.

(** A bad row of the parameters table: an undeclared name, or a value that its
    type rejects. *)
Definition bad_parameter (parses : value -> bool) (f : factory) (n v : value) : Prop :=
  match shown_param f n with
  | None => True
  | Some (None, _) => False
  | Some (Some dt, _) => valid_data parses dt v = false
  end.

Section Check.
  Variables K D : Type.
  Variable no_kw : K.
  Variable pred : nat -> list (string * value) -> K -> called value.
  Variable maker : nat -> D -> called (kwres K).
  Variable convert : called (D + string).
  Variable converted : tpn -> bool.
  Variable self : D.
  Variable show : value -> string.
  Variable parses : value -> bool.
  Variable f : factory.
  Variable handled : bool.

  Notation find_rows := (find_rows K D no_kw pred maker convert converted self show (good_parameter parses f) handled).
  Notation consistent := (consistent converted).

  Lemma parameter_check d rep : reachable parses f -> f_params f <> [] -> consistent (all_preds f) ->
    find_rows (all_preds f) (plain_schema f) d PInf = Ret rep ->
    exists pn p x, shown_pred f "parameters" pn = None /\
      decl_of (f_decl f) "parameters" = Some (Fields (mkT [p] [x])) /\
      (wf_table (mkT [p] [x]) (d "parameters") ->
       forall rid m, listed rep ("parameters", pn) rid m <->
         m = None /\ exists k r n v, row_in (d "parameters") rid k r /\ cell_in (mkT [p] [x]) k r p n /\
           cell_in (mkT [p] [x]) k r x v /\ bad_parameter parses f n v).
  Proof.
    intros Hr Hp G H. pose proof (reachable_inv _ _ Hr) as I.
    destruct (inv_params _ _ I) as (_ & Hh & _). destruct (Hh Hp) as (p & x & Hd & _).
    destruct (all_preds_good parses f I) as [W _].
    set (d0 := dget_or String.eqb (f_preds f) "parameters" []).
    destruct (fresh_check_spec d0) as (s & Es & Hs).
    exists (VStr s), p, x. split; [exact Hs|]. split; [exact Hd|]. intros Wt.
    assert (Hp' : has_params f = true) by (unfold has_params; destruct (f_params f); [congruence|reflexivity]).
    set (r := mkRpi PParam None "Boolean").
    assert (Hin : exists ps, In ("parameters", ps) (all_preds f) /\ In (VStr s, r) ps).
    { exists (dset pyeq (dget_or String.eqb (user_preds f) "parameters" []) (VStr s) r). split.
      - unfold all_preds.
        change (map (fun tp => (fst tp, map (fun np => (fst np, mkRpi (PUser (p_fn (snd np))) (p_maker (snd np)) (p_resp (snd np))))
                                        (snd tp))) (f_preds f)) with (user_preds f).
        rewrite Hp'. fold d0. rewrite Es.
        destruct (dget_In String.eqb (dset String.eqb (user_preds f) "parameters"
          (dset pyeq (dget_or String.eqb (user_preds f) "parameters" []) (VStr s) r)) "parameters"
          (dset pyeq (dget_or String.eqb (user_preds f) "parameters" []) (VStr s) r)) as (k & Ek & Hk).
        { now rewrite sget_dset. }
        apply String.eqb_eq in Ek. now subst k.
      - rewrite user_get_or, dset_absent; [apply in_or_app; right; now left|].
        rewrite map_get. fold d0. now rewrite Hs. }
    destruct Hin as (ps & Hin1 & Hin2).
    destruct (failures_exact K D no_kw pred maker convert converted self show (good_parameter parses f) handled
                (all_preds f) (plain_schema f) d rep "parameters" ps (VStr s) r no_kw W G H Hin1 Hin2 eq_refl) as (F & _ & _).
    assert (Hts : ts_of (plain_schema f) "parameters" = mkT [p] [x]).
    { apply ts_of_plain; auto. apply decl_ok_nodup. apply (inv_decl _ _ I). }
    assert (Wts : wf_tschema (mkT [p] [x])).
    { apply (decl_ok_fields _ _ _ (inv_decl _ _ I) Hd). }
    intros rid m. rewrite F, Hts.
    assert (Hgood : forall rw n v, dget String.eqb rw p = Some n -> dget String.eqb rw x = Some v ->
              (truthy (good_parameter parses f rw) = false <-> bad_parameter parses f n v)).
    { intros rw n v Hn Hv. unfold good_parameter, bad_parameter, shown_param. rewrite Hts.
      unfold dget_or. rewrite Hn, Hv. destruct (dget pyeq (f_params f) n) as [[[dt|] w]|]; cbn.
      - destruct (valid_data parses dt v); split; auto.
      - split; [discriminate|contradiction].
      - split; auto. }
    split.
    - intros (rw & Hrw & Hf).
      destruct (pred_rows_seen _ _ _ _ Wts Wt Hrw) as (k & rr & Hrow & Hcell).
      destruct Hf as [(_ & -> & Hf)|(Q & _)]; [|discriminate]. split; auto.
      destruct (cell_in_exists (mkT [p] [x]) (d "parameters") rid k rr p Wt Hrow) as [n Hn]; [now left|].
      destruct (cell_in_exists (mkT [p] [x]) (d "parameters") rid k rr x Wt Hrow) as [v Hv]; [now (right; left)|].
      exists k, rr, n, v. split; auto. split; auto. split; auto.
      destruct Hf as [(w & Hw & Ht)|(_ & e & He)]; [|discriminate].
      cbn in Hw. injection Hw as <-. apply (Hgood rw); auto; now apply Hcell.
    - intros (-> & k & rr & n & v & Hrow & Hn & Hv & Hbad).
      destruct (pred_rows_all (mkT [p] [x]) _ _ _ _ Hrow) as [rw Hrw]. exists rw. split; auto.
      destruct (pred_rows_seen _ _ _ _ Wts Wt Hrw) as (k' & rr' & Hrow' & Hcell).
      destruct (row_in_canon _ _ _ _ _ _ _ _ Wt Hrow Hrow' (rowid_pyeq_refl _)) as (_ & -> & ->).
      left. split; [reflexivity|]. split; auto. left.
      exists (good_parameter parses f rw). split; [reflexivity|]. apply (Hgood rw n v); auto; now apply Hcell.
  Qed.
End Check.

(** ** convert_dat *)

(** A predicate of the clone is converted exactly when it has a
    predicate_kwargs_maker. *)
Lemma clone_convset_iff parses g t n p : FactoryFacts.inv parses g -> shown_pred g t n = Some p ->
  (is_converted (Some (clone_convset g)) (t, n) = true <-> exists m, p_maker p = Some m).
Proof.
  intros I H. destruct (inv_preds _ _ I) as [N Hl]. unfold shown_pred, dget_or in H.
  destruct (dget String.eqb (f_preds g) t) as [l|] eqn:E; [|discriminate].
  apply dget_In in E as (t' & E & Hin). apply String.eqb_eq in E. subst t'.
  destruct (Hl _ _ Hin) as (_ & Hk & _).
  unfold is_converted. rewrite existsb_exists. unfold clone_convset. split.
  - intros ([t' n'] & Hc & Q). apply in_flat_map in Hc as ([t2 l2] & H2 & Hc).
    apply in_map_iff in Hc as ([n2 p2] & E2 & Hc). cbn in E2. injection E2 as <- <-.
    apply filter_In in Hc as [Hc Hm]. cbn in Hm. unfold tpn_eqb in Q. cbn in Q. apply andb_prop in Q as [Q1 Q2].
    apply String.eqb_eq in Q1. subst t2.
    assert (l2 = l) as -> by (eapply (pair_fst_inj (f_preds g)); eauto).
    assert (dget pyeq l n = Some p2) as Hg.
    { rewrite <- (dget_cong pyeq pyeq_sym pyeq_trans l n2 n); [|now rewrite pyeq_sym]. now apply In_dget; auto using pyeq_refl. }
    assert (p2 = p) as -> by congruence. destruct (p_maker p); [eauto|discriminate].
  - intros [m Hm]. apply dget_In in H as (n2 & Q & H2). exists (t, n2). split.
    + apply in_flat_map. exists (t, l). split; auto. apply in_map_iff. exists (n2, p). split; auto.
      apply filter_In. split; auto. cbn. now rewrite Hm.
    + unfold tpn_eqb. cbn. rewrite String.eqb_refl. now rewrite pyeq_sym.
Qed.

Lemma clone_convset_absent parses g t n : FactoryFacts.inv parses g -> shown_pred g t n = None ->
  is_converted (Some (clone_convset g)) (t, n) = false.
Proof.
  intros I H. destruct (is_converted _ _) eqn:C; auto. exfalso. revert H.
  unfold is_converted in C. apply existsb_exists in C as ([t' n'] & Hc & Q). unfold clone_convset in Hc.
  apply in_flat_map in Hc as ([t2 l2] & H2 & Hc). apply in_map_iff in Hc as ([n2 p2] & E2 & Hc). cbn in E2. injection E2 as <- <-.
  apply filter_In in Hc as [Hc Hm]. unfold tpn_eqb in Q. cbn in Q. apply andb_prop in Q as [Q1 Q2].
  apply String.eqb_eq in Q1. subst t2. destruct (inv_preds _ _ I) as [N Hl]. 
  unfold shown_pred, dget_or. intros H.
  rewrite (In_dget String.eqb String.eqb_refl (f_preds g) t l2) in H; auto.
  - rewrite dget_None in H.
    assert (pyeq n2 n = false) as Q by (eapply H; eauto).
    rewrite pyeq_sym in Q2. congruence.
  - now apply (keys_distinct_NoDup String.eqb String.eqb_eq).
Qed.
