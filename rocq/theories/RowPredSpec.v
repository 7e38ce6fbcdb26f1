(** * Row predicates: the report in terms of rows. *)
From Coq Require Import ZArith Bool List String Arith Lia.
From Verif Require Import PyVal PyValFacts PyDict PyDictFacts ListFacts TypeDict Data FindTypes FindTypesFacts FK FKFacts Factory
  FactoryFacts InfIO Params RowPred RowPredFacts RowPredMore RowPredPan.
Import ListNotations.
Local Open Scope string_scope.
Local Open Scope list_scope.

(** A row as a field -> cell dict. *)
Definition row_dict (ts : tschema) (k : key) (r : row) : list (string * value) := combine (tdf ts ++ tpk ts) (r ++ k).

Lemma combine_app_eq {A B} (a c : list A) (b d : list B) : List.length a = List.length b ->
  combine (a ++ c) (b ++ d) = combine a b ++ combine c d.
Proof. revert b. induction a as [|x a IH]; intros [|y b] H; cbn in *; try discriminate; auto. f_equal. apply IH. lia. Qed.

Lemma dupdate_fresh : forall (e d : list (string * value)), NoDup (map fst d ++ map fst e) ->
  dupdate String.eqb d e = d ++ e.
Proof.
  unfold dupdate. induction e as [|[k v] e IH]; intros d N; cbn [fold_left]; [now rewrite app_nil_r|].
  cbn [fst snd]. cbn [map fst] in N. rewrite dset_absent.
  - rewrite IH; [now rewrite <- app_assoc|]. rewrite map_app, <- app_assoc. exact N.
  - apply dget_None. intros k' v' Hin. apply NoDup_remove_2 in N. destruct (String.eqb_spec k' k) as [->|]; auto.
    exfalso. apply N. apply in_or_app. left. apply in_map_iff. exists (k, v'). auto.
Qed.

Lemma full_row_dict ts k r : wf_tschema ts -> List.length k = List.length (tpk ts) -> List.length r = List.length (tdf ts) ->
  full_row ts k r = row_dict ts k r.
Proof.
  intros W Hk Hr. unfold row_dict. rewrite combine_app_eq by (symmetry; exact Hr).
  assert (E : full_row ts k r = dupdate String.eqb (combine (tdf ts) r) (combine (tpk ts) k)).
  { unfold full_row. destruct (tpk ts) as [|p [|q pks]] eqn:E; auto. destruct k as [|v [|v2 k]]; try discriminate. reflexivity. }
  rewrite E. apply dupdate_fresh. rewrite !map_fst_combine by (symmetry; assumption).
  unfold wf_tschema, tfields in W. apply (Permutation.Permutation_NoDup (Permutation.Permutation_app_comm _ _)). exact W.
Qed.

Lemma pred_rows_iff ts tb rid rw : wf_tschema ts -> wf_table ts tb ->
  In (rid, rw) (pred_rows ts tb) <-> exists k r, row_in tb rid k r /\ rw = row_dict ts k r.
Proof.
  intros Wt W. unfold pred_rows. rewrite in_map_iff.
  assert (H : forall k r, row_in tb rid k r -> 
    match tb with Keyed _ => full_row ts k r | Listed _ => combine (tdf ts) r end = row_dict ts k r).
  { intros k r Hin. destruct tb as [l|l]; cbn in *.
    - destruct W as (_ & _ & Hl). destruct Hin as [Hin _]. destruct (Hl _ _ Hin). now apply full_row_dict.
    - destruct W as (Hp & Hl). unfold row_dict. rewrite Hp, app_nil_r.
      destruct Hin as [-> _]. now rewrite app_nil_r. }
  split.
  - intros ([[rid' k] r] & E & Hin). apply rows_of_In in Hin. injection E as -> <-. exists k, r. split; auto.
  - intros (k & r & Hin & ->). exists (rid, k, r). split; [|now apply rows_of_In]. f_equal. auto.
Qed.

Lemma rows_in_app a b : rows_in (a ++ b) = rows_in a ++ rows_in b.
Proof. apply flat_map_app. Qed.

Section Spec.
  Variables K D : Type.
  Variable no_kw : K.
  Variable pred : nat -> list (string * value) -> K -> called value.
  Variable maker : nat -> D -> called (kwres K).
  Variable convert : called (D + string).
  Variable converted : tpn -> bool.
  Variable self : D.
  Variable show : value -> string.
  Variable good_param : list (string * value) -> value.
  Variable handled : bool.

  Notation find_rows := (find_rows K D no_kw pred maker convert converted self show good_param handled).
  Notation kw_of := (kw_of K D no_kw maker convert converted self handled).
  Notation fails := (fails K pred show good_param handled).
  Notation call_pred := (call_pred K pred good_param).

  Lemma exact l sch d rep t ts ps pn r k :
    wf_preds l -> consistent converted l -> wf_schema sch -> wf_dat sch d -> find_rows l sch d PInf = Ret rep ->
    In (t, ts) sch -> In (t, ps) l -> In (pn, r) ps -> kw_of (t, pn) r = Returned (KDict k) ->
    (forall rid m, listed rep (t, pn) rid m <->
       exists key row, row_in (d t) rid key row /\ fails r k (row_dict ts key row) m) /\
    dget tpn_eqb rep (t, pn) <> Some (ERows []) /\ (forall m, dget tpn_eqb rep (t, pn) <> Some (EAll m)).
  Proof.
    intros W G Ws Wd H Ht H1 H2 Hk.
    destruct (failures_exact K D no_kw pred maker convert converted self show good_param handled l sch d rep t ps pn r k
                W G H H1 H2 Hk) as (F1 & F2 & F3).
    split; [|auto]. intros rid m. rewrite F1. rewrite (ts_of_In _ _ _ Ws Ht).
    setoid_rewrite (pred_rows_iff ts (d t) rid); [|exact (proj2 Ws _ _ Ht)|exact (Wd _ _ Ht)].
    split.
    - intros (rw & (key & row & Hin & ->) & Hf). eauto.
    - intros (key & row & Hin & Hf). eexists. split; [eauto|exact Hf].
  Qed.

  (** No row is listed twice. *)
  Lemma no_repeats l sch d rep t ts ps pn r rows :
    wf_preds l -> consistent converted l -> wf_schema sch -> wf_dat sch d -> find_rows l sch d PInf = Ret rep ->
    In (t, ts) sch -> In (t, ps) l -> In (pn, r) ps -> dget tpn_eqb rep (t, pn) = Some (ERows rows) ->
    NoDup (map (fun x => rid_canon (fst x)) rows).
  Proof.
    intros W G Ws Wd H Ht H1 H2 E.
    assert (Hx : In (t, (pn, r)) (flat l)) by (apply in_flat; eauto).
    destruct (rep_get K D no_kw pred maker convert converted self show good_param handled l sch d rep _ W G H Hx) as [E' N].
    unfold pkey in E'. cbn [fst snd] in E'. rewrite E in E'. unfold acts_of in E'. cbn [fst snd] in E'.
    destruct (kw_of (t, pn) r) as [[k|m|]|]; cbn in E'; try discriminate.
    2: { injection E' as ->. constructor. }
    assert (Hrows : rows = rows_in (flat_map (row_act K pred show good_param handled (t, pn) r k) (pred_rows (ts_of sch t) (d t)))).
    { destruct (flat_map _ _) as [|[|tp m|tp x] acts]; try discriminate; injection E' as ->; reflexivity. }
    rewrite Hrows. clear -Ws Wd Ht. rewrite (ts_of_In _ _ _ Ws Ht).
    pose proof (rows_of_NoDup ts (d t) (Wd _ _ Ht)) as Nd. unfold pred_rows.
    revert Nd. generalize (rows_of (d t)) as q. intros q.
    assert (Hone : forall x y, In y (rows_in (row_act K pred show good_param handled (t, pn) r k x)) -> fst y = fst x).
    { intros x y Hy. apply rows_in_In in Hy as [k' Hy]. apply row_act_In in Hy as [[Q _]|(m & Q & _)]; [discriminate|].
      now injection Q as _ ->. }
    assert (Hlen : forall x, List.length (rows_in (row_act K pred show good_param handled (t, pn) r k x)) <= 1).
    { intros x. unfold row_act. destruct (guarded _ _ _) as [v|m]; cbn; auto. destruct (judged _ _ _); cbn; auto. }
    induction q as [|[[rid key] row] q IH]; intros Nd; [constructor|].
    cbn [map flat_map]. inversion Nd as [|? ? Hn Nd']; subst. rewrite rows_in_app, map_app.
    specialize (IH Nd').
    match goal with |- NoDup (map _ (rows_in (row_act _ _ _ _ _ _ _ _ ?x)) ++ _) => set (x0 := x) end.
    pose proof (Hlen x0) as L. pose proof (Hone x0) as O.
    destruct (rows_in (row_act K pred show good_param handled (t, pn) r k x0)) as [|y [|z w]]; [exact IH| |cbn in L; lia].
    cbn [map app]. constructor; [|exact IH].
    rewrite (O y (or_introl eq_refl)). intros Hc. apply Hn. apply in_map_iff in Hc as (y2 & E2 & Hc).
    apply rows_in_In in Hc as [k' Hc]. apply in_flat_map in Hc as (x2 & Hx2 & Hc).
    assert (fst y2 = fst x2) as O2 by (apply Hone; apply rows_in_In; eauto).
    apply in_map_iff in Hx2 as ([[rid2 key2] row2] & <- & Hx2). cbn [fst] in O2. subst x0. cbn [fst] in E2 |- *.
    rewrite O2 in E2. rewrite <- E2. apply in_map_iff. exists (rid2, key2, row2). auto.
  Qed.

  Lemma raises l sch d : consistent converted l -> wf_schema sch -> wf_dat sch d ->
    (forall t ps, In (t, ps) l -> exists ts, In (t, ts) sch) ->
    find_rows l sch d PInf = Raise <->
    exists t ts ps pn r, In (t, ts) sch /\ In (t, ps) l /\ In (pn, r) ps /\
      ((exists e, kw_of (t, pn) r = Raised e) \/
       (handled = false /\ exists k rid key row e, kw_of (t, pn) r = Returned (KDict k) /\
          row_in (d t) rid key row /\ call_pred (r_fn r) (row_dict ts key row) k = Raised e)).
  Proof.
    intros G Ws Wd Hl. rewrite raises_exact by exact G. split.
    - intros (t & ps & pn & r & H1 & H2 & H). destruct (Hl _ _ H1) as [ts Ht].
      exists t, ts, ps, pn, r. split; auto. split; auto. split; auto.
      destruct H as [H|(Hh & k & rid & rw & e & H3 & H4 & H5)]; [now left|right]. split; auto.
      rewrite (ts_of_In _ _ _ Ws Ht) in H4. apply pred_rows_iff in H4 as (key & row & H4 & ->); [|exact (proj2 Ws _ _ Ht)|exact (Wd _ _ Ht)].
      exists k, rid, key, row, e. auto.
    - intros (t & ts & ps & pn & r & Ht & H1 & H2 & H). exists t, ps, pn, r. split; auto. split; auto.
      destruct H as [H|(Hh & k & rid & key & row & e & H3 & H4 & H5)]; [now left|right]. split; auto.
      exists k, rid, (row_dict ts key row), e. split; auto. split; auto.
      rewrite (ts_of_In _ _ _ Ws Ht). apply pred_rows_iff; [exact (proj2 Ws _ _ Ht)|exact (Wd _ _ Ht)|eauto].
  Qed.
End Spec.

(** Without convert_dat every maker sees the same dat. *)
Lemma consistent_unconverted l : consistent (fun _ => false) l.
Proof. intros x y n _ _ _ _. reflexivity. Qed.

(** A predicate's part of the report is the report of the predicate run alone:
    makers are not mixed up. *)
Lemma alone K D no_kw pred maker convert converted self show good_param handled l sch d rep t ps pn r :
  let find := find_rows K D no_kw pred maker convert converted self show good_param handled in
  wf_preds l -> consistent converted l -> find l sch d PInf = Ret rep -> In (t, ps) l -> In (pn, r) ps ->
  exists rep1, find [(t, [(pn, r)])] sch d PInf = Ret rep1 /\ dget tpn_eqb rep (t, pn) = dget tpn_eqb rep1 (t, pn).
Proof.
  intros find W G H H1 H2.
  assert (Hx : In (t, (pn, r)) (flat l)) by (apply in_flat; eauto).
  destruct (rep_get K D no_kw pred maker convert converted self show good_param handled l sch d rep _ W G H Hx) as [E N].
  assert (W1 : wf_preds [(t, [(pn, r)])]).
  { split; [constructor; [intros []|constructor]|]. intros t' ps' [[= <- <-]|[]]. cbn. split; [intros k' []|exact I]. }
  assert (G1 : consistent converted [(t, [(pn, r)])]).
  { intros x y n [<-|[]] [<-|[]] _ _. reflexivity. }
  destruct (find [(t, [(pn, r)])] sch d PInf) as [rep1|] eqn:F.
  - exists rep1. split; auto.
    destruct (rep_get K D no_kw pred maker convert converted self show good_param handled _ sch d rep1 (t, (pn, r)) W1 G1 F) as [E1 _];
      [now left|]. unfold pkey in *. cbn [fst snd] in *. congruence.
  - exfalso. unfold find in F. rewrite find_acts in F by exact G1. cbn [num_ltb of_int] in F.
    rewrite run_inf in F. change (existsb (fun a => match a with ARaise => true | _ => false end)) with (existsb is_raise) in F.
    unfold flat in F. cbn [flat_map map fst snd app] in F. rewrite app_nil_r in F. rewrite N in F. discriminate.
Qed.
