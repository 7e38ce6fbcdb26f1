(** * Database files: statements, names, rows stored. *)
From Coq Require Import ZArith Bool List String Ascii Arith Lia Permutation.
From Verif Require Import PyVal PyValFacts PyDict PyDictFacts PyStr ListFacts TypeDict Data FindTypes FindTypesFacts FK Graph GraphFacts
  Obj ObjFacts ObjMore Factory FactoryFacts InfIO InfIOFacts Params Names NamesFacts Utils UtilsMore Ampl Json ObjRows JsonFacts TripFacts Sql SqlFacts
  Csv CsvMore Pg PgFacts PgWrite PgTrip FileDb.
Import ListNotations.
Local Open Scope string_scope.
Local Open Scope list_scope.

(** ** Names *)

Lemma same_refl : forall a, same_name a a = true.
Proof. intros a. apply String.eqb_refl. Qed.
Lemma same_sym : forall a b, same_name a b = same_name b a.
Proof. intros a b. apply String.eqb_sym. Qed.
Lemma same_trans : forall a b c, same_name a b = true -> same_name b c = true -> same_name a c = true.
Proof. unfold same_name. intros a b c. rewrite !String.eqb_eq. congruence. Qed.
Lemma same_iff : forall a b, same_name a b = true <-> lower a = lower b.
Proof. intros. apply String.eqb_eq. Qed.
Lemma same_neq : forall a b, same_name a b = false <-> lower a <> lower b.
Proof. intros. apply String.eqb_neq. Qed.

Lemma find_dset : forall db t dt n, find_table (dset same_name db t dt) n = if same_name t n then Some dt else find_table db n.
Proof. intros. apply dget_dset; eauto using same_refl, same_sym, same_trans. Qed.

Lemma find_cong : forall db a b, same_name a b = true -> find_table db a = find_table db b.
Proof. intros db a b H. eapply dget_cong; eauto using same_refl, same_sym, same_trans. Qed.

(** Tables of a schema have names that differ in more than case. *)
Lemma tables_differ : forall f t u, decl_ok (f_decl f) = true -> In t (map fst (plain_schema f)) -> In u (map fst (plain_schema f)) ->
  same_name t u = true -> t = u.
Proof.
  intros f t u Hd Ht Hu E. apply same_iff in E. pose proof (plain_legal f Hd) as [L _].
  eapply (NoDup_map_inj_in lower (map fst (plain_schema f))); eauto.
Qed.

(** ** Files with the same tables *)

Definition same_tables (db db' : filedb) : Prop := forall n,
  match find_table db n with
  | None => find_table db' n = None
  | Some dt => exists rows, find_table db' n = Some (set_rows dt rows)
  end.

Lemma set_own : forall dt, set_rows dt (dt_rows dt) = dt.
Proof. now intros [a b c]. Qed.

Lemma same_tables_refl : forall db, same_tables db db.
Proof. intros db n. destruct (find_table db n) as [dt |]; auto. exists (dt_rows dt). now rewrite set_own. Qed.

Lemma same_tables_trans : forall a b c, same_tables a b -> same_tables b c -> same_tables a c.
Proof.
  intros a b c H1 H2 n. specialize (H1 n). specialize (H2 n). destruct (find_table a n) as [dt |].
  - destruct H1 as (r & H1). rewrite H1 in H2. destruct H2 as (r' & H2). exists r'. exact H2.
  - rewrite H1 in H2. exact H2.
Qed.

Lemma try_find : forall db n, try_name (map fst db) n = match find_table db n with Some _ => true | None => false end.
Proof.
  intros db n. unfold try_name, find_table. induction db as [| [k dt] db IH]; auto. simpl. unfold same_name at 1.
  unfold mem_str in *. cbn [map existsb]. rewrite (String.eqb_sym (lower n)). destruct (String.eqb (lower k) (lower n)) eqn:E; auto.
Qed.

Lemma get_db_ext : forall db db' t, (forall n, find_table db n = None <-> find_table db' n = None) ->
  get_db_table (map fst db) t = get_db_table (map fst db') t.
Proof.
  intros db db' t H. unfold get_db_table.
  assert (filter (try_name (map fst db)) (all_underscore_replacements t) = filter (try_name (map fst db')) (all_underscore_replacements t)) as ->; auto.
  apply filter_ext. intros n. rewrite !try_find. specialize (H n). destruct (find_table db n), (find_table db' n); auto.
  - destruct H as [_ H]. specialize (H eq_refl). discriminate.
  - destruct H as [H _]. specialize (H eq_refl). discriminate.
Qed.

Lemma has_col_set : forall dt rows x, has_col (set_rows dt rows) x = has_col dt x.
Proof. reflexivity. Qed.

Lemma names_found_spec : forall db tables names, names_found db tables = Ret names ->
  (forall t, In t tables -> exists o, get_db_table (map fst db) t = Ret o /\ dget String.eqb names t = o) /\
  forall t n, In (t, n) names -> In t tables /\ get_db_table (map fst db) t = Ret (Some n).
Proof.
  intros db tables names H. unfold names_found in H. apply bindO_ret in H as (l & H & E). injection E as <-. apply mapO_Forall2 in H.
  assert (forall t n, In (t, n) (List.concat l) -> In t tables /\ get_db_table (map fst db) t = Ret (Some n)) as B.
  { induction H as [| u p tables l H _ IH]; simpl; [intros ? ? [] |]. apply bindO_ret in H as (o & H & E). injection E as <-.
    intros t n Hin. apply in_app_iff in Hin as [Hin | Hin].
    - destruct o as [m |]; simpl in Hin; [destruct Hin as [Hin | []]; injection Hin as <- <-; auto | contradiction].
    - apply IH in Hin as [A C]. auto. }
  split; auto. intros t Ht. destruct (Forall2_In_l _ _ _ _ H Ht) as (p & Hp & G). apply bindO_ret in G as (o & G & E). injection E as <-.
  exists o. split; auto. destruct (dget String.eqb (List.concat l) t) as [n |] eqn:D.
  - apply dget_In in D as (t' & E & D). apply String.eqb_eq in E. subst t'. apply B in D as [_ D]. rewrite G in D. now injection D as ->.
  - destruct o as [n |]; auto. exfalso. apply dget_str_None in D. apply D. apply in_map_iff. exists (t, n). split; auto.
    apply in_concat. exists [(t, n)]. simpl. auto.
Qed.

Lemma names_found_ext : forall db db' tables, (forall n, find_table db n = None <-> find_table db' n = None) ->
  names_found db tables = names_found db' tables.
Proof.
  intros db db' tables H. unfold names_found. f_equal. induction tables as [| t l IH]; auto. cbn [mapO]. now rewrite (get_db_ext db db' t H), IH.
Qed.

Lemma same_tables_none : forall db db', same_tables db db' -> forall n, find_table db n = None <-> find_table db' n = None.
Proof.
  intros db db' H n. specialize (H n). destruct (find_table db n) as [dt |].
  - destruct H as (r & ->). split; discriminate.
  - rewrite H. tauto.
Qed.

Lemma check_fields_ext : forall f db db', same_tables db db' -> check_fields f db = check_fields f db'.
Proof.
  intros f db db' H. unfold check_fields. rewrite (names_found_ext db db' _ (same_tables_none _ _ H)). destruct (names_found db' _) as [names |]; auto.
  cbn [bindO].
  assert (forallb (fun tn : string * string => match find_table db (snd tn) with
                            | Some dt => forallb (has_col dt) (tfields (ts_of (plain_schema f) (fst tn))) | None => false end) names =
          forallb (fun tn : string * string => match find_table db' (snd tn) with
                            | Some dt => forallb (has_col dt) (tfields (ts_of (plain_schema f) (fst tn))) | None => false end) names) as ->; auto.
  induction names as [| [t n] names IH]; auto. cbn [forallb fst snd]. rewrite IH. f_equal. specialize (H n). destruct (find_table db n) as [dt |].
  - destruct H as (r & ->). reflexivity.
  - now rewrite H.
Qed.

(** What the check establishes. *)
Lemma check_fields_spec : forall f db names, decl_ok (f_decl f) = true -> check_fields f db = Ret names ->
  forall t ts, In (t, ts) (plain_schema f) ->
    exists o, get_db_table (map fst db) t = Ret o /\ dget String.eqb names t = o /\
      forall n, o = Some n -> exists dt, find_table db n = Some dt /\ forall x, In x (tfields ts) -> has_col dt x = true.
Proof.
  intros f db names Hd H t ts Hin. unfold check_fields in H. apply bindO_ret in H as (names' & H & E). destruct (forallb _ names') eqn:F; [| discriminate].
  injection E as ->. apply names_found_spec in H as [A B]. destruct (A t) as (o & G & D). { now apply (in_map fst) in Hin. }
  exists o. split; auto. split; auto. intros n ->. rewrite forallb_forall in F. apply dget_In in D as (t' & E & D). apply String.eqb_eq in E. subst t'.
  specialize (F _ D). cbn [fst snd] in F. destruct (find_table db n) as [dt |]; [| discriminate]. exists dt. split; auto.
  rewrite (ts_of_In _ _ _ (plain_wf f Hd) Hin) in F. now rewrite forallb_forall in F.
Qed.

(** ** Statements *)

Section Engine.
  Variable store : string -> value -> option value.
  Variable key_free : list (list value) -> list value -> bool.

  Definition cell_for (given : list (string * value)) (c : dbcol) (v : value) : Prop :=
    match dget same_name given (dc_name c) with Some w => store (dc_type c) w = Some v | None => v = dc_default c end.

  Lemma new_cells_spec : forall given cols r, new_cells store cols given = Some r <-> Forall2 (cell_for given) cols r.
  Proof.
    intros given. induction cols as [| c cols IH]; intros r; cbn [new_cells].
    - split; [intros [= <-]; constructor | intros H; inversion H; auto].
    - split.
      + intros H. destruct (match dget same_name given (dc_name c) with Some v => store (dc_type c) v | None => Some (dc_default c) end) as [v |] eqn:E; [| discriminate].
        destruct (new_cells store cols given) as [r' |] eqn:F; [| discriminate]. injection H as <-. constructor; [| now apply IH].
        unfold cell_for. destruct (dget same_name given (dc_name c)); [auto | now injection E as <-].
      + intros H. inversion H as [| ? v ? r' A B]; subst. apply IH in B. rewrite B. unfold cell_for in A.
        destruct (dget same_name given (dc_name c)); [now rewrite A | now subst v].
  Qed.

  Lemma insert_spec : forall db t g db', db_insert store key_free db t g = Some db' ->
    exists dt r, find_table db t = Some dt /\ new_cells store (dt_cols dt) g = Some r /\
      forall n, find_table db' n = if same_name t n then Some (set_rows dt (dt_rows dt ++ [r])) else find_table db n.
  Proof.
    intros db t g db' H. unfold db_insert in H. destruct (find_table db t) as [dt |]; [| discriminate].
    destruct (distinct_b _ && _); [| discriminate]. destruct (new_cells store (dt_cols dt) g) as [r |] eqn:N; [| discriminate].
    destruct (Nat.eqb _ 0 || _); [| discriminate]. injection H as <-. exists dt, r. split; auto. split; auto. intros n. apply find_dset.
  Qed.

  Lemma insert_list_spec : forall l db db', insert_list store key_free l db = Some db' -> forall n,
    match find_table db n with
    | None => find_table db' n = None
    | Some dt => exists rows,
        Forall2 (fun g r => new_cells store (dt_cols dt) g = Some r) (map snd (filter (fun tg => same_name (fst tg) n) l)) rows /\
        find_table db' n = Some (set_rows dt (dt_rows dt ++ rows))
    end.
  Proof.
    induction l as [| [u g] l IH]; intros db db' H n; cbn [insert_list fst snd] in H.
    - injection H as <-. destruct (find_table db n) as [dt |]; auto. exists []. rewrite app_nil_r, set_own. split; [constructor | auto].
    - destruct (db_insert store key_free db u g) as [db1 |] eqn:E; [| discriminate]. apply insert_spec in E as (dt1 & r & F & N & G).
      specialize (IH _ _ H n). rewrite G in IH. cbn [filter fst]. destruct (same_name u n) eqn:E.
      + rewrite <- (find_cong db u n E), F. destruct IH as (rows & A & B). exists (r :: rows). split; [constructor; auto |].
        rewrite B. unfold set_rows. cbn [dt_cols dt_key dt_rows]. now rewrite <- app_assoc.
      + exact IH.
  Qed.

  Lemma clear_spec : forall db t n, find_table (clear_table db t) n =
    if same_name t n then option_map (fun dt => set_rows dt []) (find_table db n) else find_table db n.
  Proof.
    intros db t n. unfold clear_table. destruct (find_table db t) as [dt |] eqn:E.
    - rewrite find_dset. destruct (same_name t n) eqn:S; auto. now rewrite <- (find_cong db t n S), E.
    - destruct (same_name t n) eqn:S; auto. now rewrite <- (find_cong db t n S), E.
  Qed.

  Lemma clear_tables : forall db t, same_tables db (clear_table db t).
  Proof.
    intros db t n. rewrite clear_spec. destruct (find_table db n) as [dt |]; destruct (same_name t n); simpl; auto.
    - exists []. reflexivity.
    - exists (dt_rows dt). now rewrite set_own.
  Qed.

  Lemma insert_tables : forall db t g db', db_insert store key_free db t g = Some db' -> same_tables db db'.
  Proof.
    intros db t g db' H n. apply insert_spec in H as (dt & r & F & _ & G). rewrite G. destruct (same_name t n) eqn:S.
    - rewrite <- (find_cong db t n S), F. eauto.
    - destruct (find_table db n) as [dt0 |]; auto. exists (dt_rows dt0). now rewrite set_own.
  Qed.

  (** ** Rows *)

  (** [row_as W ts dt r s]: the row [r] of the object is in the file as [s]: the column of each field
      has what it makes of the value [W] gives for the cell, and other columns have their default. *)
  Definition row_as (W : string -> value -> outcome value) (ts : tschema) (dt : dbtable) (r s : list value) : Prop :=
    List.length s = List.length (dt_cols dt) /\
    forall c u, In (c, u) (combine (dt_cols dt) s) ->
      (exists x v w, In (x, v) (combine (tfields ts) r) /\ lower x = lower (dc_name c) /\ W x v = Ret w /\ store (dc_type c) w = Some u) \/
      (forall x, In x (tfields ts) -> lower x <> lower (dc_name c)) /\ u = dc_default c.

  Lemma row_as_new : forall W ts dt r given s, List.length r = List.length (tfields ts) ->
    Forall2 (fun fx g => fst g = fst fx /\ W (fst fx) (snd fx) = Ret (snd g)) (combine (tfields ts) r) given ->
    new_cells store (dt_cols dt) given = Some s -> row_as W ts dt r s.
  Proof.
    intros W ts dt r given s L F H. apply new_cells_spec in H. split; [symmetry; eapply Forall2_length; eauto |].
    intros c u Hc.
    assert (cell_for given c u) as Hcell.
    { clear F L. induction H as [| c0 u0 cols s H _ IH]; simpl in Hc; [contradiction |]. destruct Hc as [E | Hc]; [injection E as <- <-; auto | auto]. }
    unfold cell_for in Hcell. destruct (dget same_name given (dc_name c)) as [w |] eqn:D.
    - left. apply dget_In in D as (x & E & D). apply same_iff in E. destruct (Forall2_In_r _ _ _ _ F D) as ([x' v] & Hin & E1 & E2).
      cbn [fst snd] in *. subst x'. exists x, v, w. auto.
    - right. split; auto. intros x Hx E. rewrite dget_None in D.
      assert (In x (map fst (combine (tfields ts) r))) as Hx' by (rewrite map_fst_combine; auto).
      apply in_map_iff in Hx' as (fx & Ef & Hfx). destruct (Forall2_In_l _ _ _ _ F Hfx) as ([y w] & Hy & E1 & _). cbn [fst] in E1.
      specialize (D _ _ Hy). rewrite E1, Ef in D. apply same_neq in D. contradiction.
  Qed.

  (** The cell selected for a field. *)
  Lemma row_as_cell : forall W ts dt r s x v, NoDup (map (fun c => lower (dc_name c)) (dt_cols dt)) -> NoDup (map lower (tfields ts)) ->
    row_as W ts dt r s -> In (x, v) (combine (tfields ts) r) -> has_col dt x = true ->
    exists c w, In c (dt_cols dt) /\ lower (dc_name c) = lower x /\ W x v = Ret w /\ store (dc_type c) w = Some (db_cell dt s x).
  Proof.
    intros W ts dt r s x v Hn Hf [L H] Hx Hc. unfold has_col in Hc. apply existsb_exists in Hc as (c & Hc & E). apply same_iff in E.
    assert (exists u, In (c, u) (combine (dt_cols dt) s)) as (u & Hu).
    { clear H Hn E Hx. revert s L. induction (dt_cols dt) as [| c0 cols IH]; intros [| u s] L; try discriminate; [contradiction |].
      destruct Hc as [-> | Hc]; [exists u; simpl; auto |]. destruct (IH Hc s) as (u' & Hu); [now injection L |]. exists u'. simpl. auto. }
    assert (db_cell dt s x = u) as Eu.
    { unfold db_cell, dget_or. clear H. revert s L Hu. induction (dt_cols dt) as [| c0 cols IH]; intros [| u0 s] L Hu; try discriminate; [contradiction |].
      cbn [map combine dget]. cbn [map] in Hn. apply NoDup_cons_iff in Hn as [N1 N2]. destruct Hu as [Hu | Hu].
      - injection Hu as -> ->. assert (same_name (dc_name c) x = true) as -> by (now apply same_iff). reflexivity.
      - assert (same_name (dc_name c0) x = false) as ->.
        { apply same_neq. intros Ec. apply N1. rewrite Ec, <- E. apply in_combine_l in Hu. now apply (in_map (fun c => lower (dc_name c))) in Hu. }
        apply IH; auto. apply in_combine_l in Hu. auto. }
    destruct (H _ _ Hu) as [(x' & v' & w & Hx' & E' & Hw & Hs) | [Hno _]].
    - assert (x' = x) as ->.
      { eapply (NoDup_map_inj_in lower); eauto; [eapply in_combine_l; eauto | eapply in_combine_l; eauto | congruence]. }
      assert (v' = v) as ->.
      { assert (NoDup (tfields ts)) as Nf by (eapply NoDup_map_inv'; eauto). clear - Hx Hx' Nf. revert r Hx Hx'.
        induction (tfields ts) as [| y fs IH]; intros [| u r] Hx Hx'; try contradiction. simpl in *. apply NoDup_cons_iff in Nf as [N1 N2].
        destruct Hx as [Hx | Hx], Hx' as [Hx' | Hx'].
        - congruence.
        - injection Hx as -> ->. exfalso. apply N1. eapply in_combine_l; eauto.
        - injection Hx' as -> ->. exfalso. apply N1. eapply in_combine_l; eauto.
        - eauto. }
      exists c, w. rewrite Eu. auto.
    - exfalso. apply (Hno x); auto. eapply in_combine_l; eauto.
  Qed.
End Engine.
