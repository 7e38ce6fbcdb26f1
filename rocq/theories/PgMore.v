(** * Postgres: the schema in terms of the declarations, and single cells. *)
From Coq Require Import ZArith Bool List String Ascii Arith Lia Permutation.
From Verif Require Import PyVal PyValFacts PyDict PyDictFacts PyStr ListFacts TypeDict Data FindTypes FindTypesFacts FK FKFacts Graph GraphFacts
  Obj ObjFacts ObjMore Factory FactoryFacts InfIO InfIOFacts Params Names NamesFacts Utils Json ObjRows JsonFacts TripFacts Pg PgFacts PgSchema PgWrite PgTrip PgStore.
Import ListNotations.
Local Open Scope string_scope.
Local Open Scope list_scope.

(** The DEFAULT of the column of a data field. *)
Inductive default_clause (f : factory) (t x : string) : option dexp -> Prop :=
| dc_num : forall z, cell_default (f_defaults f) t x = VNum (Fin z) -> default_clause f t x (Some (DNum z))
| dc_bool : forall b, cell_default (f_defaults f) t x = VBool b -> default_clause f t x (Some (DBool b))
| dc_text : forall s, cell_default (f_defaults f) t x = VStr s -> s <> "" -> default_clause f t x (Some (DText s))
| dc_empty : cell_default (f_defaults f) t x = VStr "" -> default_clause f t x (Some DNull)
| dc_none : cell_default (f_defaults f) t x = VNone -> default_clause f t x (Some DNull)
| dc_pinf : forall m, cell_default (f_defaults f) t x = VNum PInf -> f_flag f = VNum (Fin m) -> default_clause f t x (Some (DNum (Z.abs m)))
| dc_ninf : forall m, cell_default (f_defaults f) t x = VNum NInf -> f_flag f = VNum (Fin m) -> default_clause f t x (Some (DNum (- Z.abs m)))
| dc_bare : (exists n, cell_default (f_defaults f) t x = VNum n /\ (forall z, n <> Fin z) /\ forall m, f_flag f <> VNum (Fin m)) \/
            cell_default (f_defaults f) t x = VNaN \/ (exists d, cell_default (f_defaults f) t x = VDate d) -> default_clause f t x (Some DBare).

Lemma default_sql_clause : forall f forced t x, dget tf_eqb forced (t, x) = None -> (forall dt, field_type f t x = Some dt -> datetime dt = false) ->
  default_clause f t x (default_sql f forced t x).
Proof.
  intros f forced t x Hf Hdt. unfold default_sql, db_default. rewrite Hf. cbn [andb orb].
  assert (match field_type f t x with Some dt => datetime dt | None => false end = false) as -> by (destruct (field_type f t x); auto).
  cbn [orb]. destruct (cell_default (f_defaults f) t x) as [| | b | [| z |] | s | d] eqn:E.
  - now apply dc_none.
  - apply dc_bare. auto.
  - now apply dc_bool.
  - destruct (f_flag f) as [| | | [| m |] | |] eqn:F; try (apply dc_bare; left; exists NInf; repeat split; auto; congruence). now apply dc_ninf.
  - now apply dc_num.
  - destruct (f_flag f) as [| | | [| m |] | |] eqn:F; try (apply dc_bare; left; exists PInf; repeat split; auto; congruence). now apply dc_pinf.
  - destruct s as [| a s]; [now apply dc_empty |]. apply dc_text; auto. discriminate.
  - apply dc_bare. eauto.
Qed.

Section More.
  Variable date_of : value -> option Z.
  Variable float_of : value -> option value.
  Variable pg_text : value -> string.
  Variable pg_num : string -> option num.
  Variable pg_stamp : string -> option Z.
  Variable pg_bool : string -> option bool.
  Variable pg_int : Z -> option Z.
  Variable pg_float : Z -> Z.
  Variable pg_other : string -> value -> option value.

  Let coerce := coerce pg_text pg_num pg_stamp pg_bool pg_int pg_float pg_other.
  Let write_schema := write_schema pg_text pg_num pg_stamp pg_bool pg_int pg_float pg_other.

  Theorem schema_declared : forall f forced db db', decl_ok (f_decl f) = true -> fks_within (f_fks f) (map fst (plain_schema f)) ->
    write_schema f forced true db = Ret db' ->
    (forall t, ~ In t (map fst (plain_schema f)) -> dget String.eqb db' t = dget String.eqb db t) /\
    forall t ts, In (t, ts) (plain_schema f) -> dget String.eqb db t = None /\ exists pt, dget String.eqb db' t = Some pt /\
      map c_name (pt_cols pt) = map pg_name (tfields ts) /\ NoDup (map c_name (pt_cols pt)) /\ pt_key pt = map pg_name (tpk ts) /\ pt_rows pt = [] /\
      ((forall k, In k (f_fks f) -> NoDup (map fst (fk_map k)) /\ NoDup (map snd (fk_map k))) ->
       forall g, In g (pt_fks pt) <-> exists k, In k (f_fks f) /\ fk_native k = t /\ g_table g = fk_foreign k /\
         g_native g = map (fun nf => pg_name (fst nf)) (fk_map k) /\ g_foreign g = map (fun nf => pg_name (snd nf)) (fk_map k)) /\
      forall x, In x (tfields ts) -> exists c, In c (pt_cols pt) /\ c_name c = pg_name x /\ column_type f forced t ts x (c_type c) /\
        (c_notnull c = true <-> In x (tdf ts) /\ exists dt, field_type f t x = Some dt /\ nullable dt = false /\ (number_allowed dt = false \/ f_flag f <> VNone)) /\
        (In x (tpk ts) -> c_default c = None) /\
        (In x (tdf ts) -> dget tf_eqb forced (t, x) = None -> (forall dt, field_type f t x = Some dt -> datetime dt = false) ->
           default_clause f t x (c_default c)).
  Proof.
    intros f forced db db' Hd Hw H. apply schema_written in H as (Hn & Hf & Hg & stmts & -> & Em & Hfree & Hs & Ht); auto. split.
    - intros t Hnt. rewrite dget_app. destruct (dget String.eqb db t); auto. apply dget_str_None. rewrite Em. now rewrite ordered_In.
    - intros t ts Hin. split; [apply Hfree; now apply (in_map fst) in Hin |]. destruct (Ht _ _ Hin) as (pt & _ & G & Hst). exists pt. split; auto.
      pose proof (stmt_names _ _ _ _ _ Hst) as En. split; auto. split; [rewrite En; eapply field_names_NoDup; eauto |].
      destruct (stmt_spec _ _ _ _ _ Hst) as (ks & ds & _ & _ & _ & Hk & Hr & Hfk). split; auto. split; auto. split.
      + intros H11 g. rewrite Hfk. rewrite in_map_iff. split.
        * intros (k & <- & Hk'). apply filter_In in Hk' as [A B]. apply String.eqb_eq in B. exists k.
          unfold pg_fk. cbn [g_native g_table g_foreign]. rewrite (n2f_distinct (fk_map k)) by (now apply H11). auto.
        * intros (k & A & B & C & D & E). exists k. split; [| apply filter_In; split; auto; now apply String.eqb_eq].
          destruct g as [gn gt gf]. unfold pg_fk. rewrite (n2f_distinct (fk_map k)) by (now apply H11). cbn in *. subst. reflexivity.
      + intros x Hx. destruct (stmt_column f forced Hd t ts pt x Hn Hin Hst Hx) as (c & C1 & _ & _ & C2 & C3 & C4 & C5).
        exists c. split; auto. split; auto. split; [now apply fld_type_spec in C5 |].
        pose proof (proj2 (plain_wf f Hd) t ts Hin) as Hwf. unfold wf_tschema, tfields in *.
        apply in_app_iff in Hx as [Hx | Hx].
        * specialize (C3 Hx). destruct (key_column_name _ _ _ _ _ C3) as (_ & N & D & _). split; [| split; auto].
          -- rewrite N. split; [discriminate |]. intros [Hx' _]. exfalso. eapply NoDup_app_disj; eauto.
          -- intros Hx'. exfalso. eapply NoDup_app_disj; eauto.
        * specialize (C4 Hx). destruct (data_column_name _ _ _ _ _ C4) as (_ & N & D & _). split; [| split].
          -- rewrite N. unfold pg_nullable. destruct (field_type f t x) as [dt |] eqn:F.
             ++ rewrite negb_true_iff, orb_false_iff. rewrite andb_false_iff, value_eqb_neq. split.
                ** intros [A B]. split; auto. exists dt. auto.
                ** intros [_ (dt' & E & A & B)]. injection E as <-. auto.
             ++ cbn. split; [discriminate |]. intros [_ (dt' & E & _)]. discriminate.
          -- intros Hx'. exfalso. eapply NoDup_app_disj; eauto.
          -- intros _ A B. rewrite D. now apply default_sql_clause.
  Qed.

  (** ** Cells that a column does not change *)

  Inductive column_keeps : ctype -> value -> Prop :=
  | ck_null : forall c, column_keeps c VNone
  | ck_text : forall s, column_keeps CText (VStr s)
  | ck_int : forall z, pg_int z = Some z -> column_keeps CInteger (VNum (Fin z))
  | ck_float : forall z, pg_float z = z -> column_keeps CFloat (VNum (Fin z))
  | ck_pinf : column_keeps CFloat (VNum PInf)
  | ck_ninf : column_keeps CFloat (VNum NInf)
  | ck_nan : column_keeps CFloat VNaN
  | ck_bool : forall b, column_keeps CBool (VBool b)
  | ck_time : forall d, column_keeps CTimestamp (VDate d)
  | ck_other : forall s v, pg_other s v = Some v -> column_keeps (COther s) v.

  Lemma keeps_spec : forall c v, column_keeps c v <-> coerce c v = Some v.
  Proof.
    intros c v. split.
    - intros H. destruct H; simpl; auto.
      + now rewrite H.
      + now rewrite H.
      + destruct v; auto.
    - intros H. unfold coerce, Pg.coerce in H. destruct v as [| | b | n | s | d]; [constructor | | | | |];
        destruct c; try discriminate H; try (destruct n as [| z |]; try discriminate H); try (now constructor).
      + constructor. destruct (pg_int z) eqn:E; cbn in H; congruence.
      + constructor. congruence.
      + destruct (pg_num s) as [[| z |] |]; try discriminate H. destruct (pg_int z); discriminate H.
      + destruct (pg_num s) as [[| z |] |]; discriminate H.
      + destruct (pg_bool s); discriminate H.
      + destruct (pg_stamp s); discriminate H.
  Qed.

  Variable f : factory.
  Let pg_trip := pg_trip date_of float_of pg_text pg_num pg_stamp pg_bool pg_int pg_float pg_other f.

  (** The column of field [x] of [t] keeps whatever is written for [v]. *)
  Definition kept_by_column (db : pgdb) (t x : string) (v : value) : Prop :=
    forall pt c u, dget String.eqb db t = Some pt -> In c (pt_cols pt) -> c_name c = pg_name x -> pg_write_cell date_of f t x v = Ret u -> column_keeps (c_type c) u.

  Lemma trip_kept : forall db t ts x v, kept_by_column db t x v ->
    (exists u, pg_write_cell date_of f t x v = Ret u /\ pg_read_cell date_of float_of f t x u = Ret v) -> pg_trip db t ts x v v.
  Proof.
    intros db t ts x v Hk (u & A & B) pt c G Hc E u' s A' C. rewrite A in A'. injection A' as <-.
    specialize (Hk pt c u G Hc E A). apply keeps_spec in Hk. unfold coerce in Hk. rewrite Hk in C. now injection C as <-.
  Qed.

  Lemma pg_trip_na : forall db t ts x v, is_table f t = true -> t <> "parameters" -> f_flag f = VStr "N/A" ->
    kept date_of float_of f t x v -> kept_by_column db t x v -> pg_trip db t ts x v v.
  Proof.
    intros db t ts x v Ht Hp Hf Hk Hc. apply trip_kept; auto.
    apply (round_trip_na date_of float_of (mkIO f []) (mkIO f [])); auto. apply reached_fresh.
  Qed.

  Lemma pg_trip_numeric : forall db t ts x v m, is_table f t = true -> t <> "parameters" -> f_flag f = VNum m -> good_flag (VNum m) = true ->
    kept date_of float_of f t x v ->
    (forall n, v = VNum n -> n = PInf \/ n = NInf ->
       kept date_of float_of f t x (VNum m) /\ kept date_of float_of f t x (VNum (num_opp m))) ->
    (forall n, v = VNum n -> n = PInf \/ n = NInf \/ within m n) ->
    kept_by_column db t x v -> pg_trip db t ts x v v.
  Proof.
    intros db t ts x v m Ht Hp Hf Hg Hk H1 H2 Hc. apply trip_kept; auto.
    apply (round_trip_numeric date_of float_of (mkIO f []) (mkIO f [])) with (m := m); auto; apply reached_fresh.
  Qed.

  Lemma pg_trip_none : forall db t ts x v, is_table f t = true -> t <> "parameters" -> f_flag f = VNone ->
    kept date_of float_of f t x v ->
    (forall dt, field_type f t x = Some dt -> valid_data (is_date date_of) dt v = true) ->
    fst (write_cell date_of (mkIO f []) t x v) <> Raise ->
    kept_by_column db t x v -> pg_trip db t ts x v v.
  Proof.
    intros db t ts x v Ht Hp Hf Hk H1 H2 Hc. apply trip_kept; auto.
    apply (round_trip_none date_of float_of (mkIO f []) (mkIO f [])); auto; apply reached_fresh.
  Qed.
End More.

Section Writing.
  Variable date_of : value -> option Z.
  Variable pg_text : value -> string.
  Variable pg_num : string -> option num.
  Variable pg_stamp : string -> option Z.
  Variable pg_bool : string -> option bool.
  Variable pg_int : Z -> option Z.
  Variable pg_float : Z -> Z.
  Variable pg_other : string -> value -> option value.
  Let write_data := write_data date_of pg_text pg_num pg_stamp pg_bool pg_int pg_float pg_other.
  Variable f : factory.

  (** What is checked before anything is deleted. *)
  Lemma write_refused : forall auto pre active d db,
    names_ok f = false \/ pg_name active <> active \/
    (exists t ts, In (t, ts) (plain_schema f) /\ (dget String.eqb db t = None \/
       exists pt x, dget String.eqb db t = Some pt /\ In x (tfields ts) /\ ~ In (pg_name x) (map c_name (pt_cols pt)))) \/
    (exists t v, In (t, v) pre /\ (is_table f t = false \/ v <> "delete" /\ v <> "append")) ->
    write_data f auto pre active d db = (false, db).
  Proof.
    intros auto pre active d db H. unfold write_data, Pg.write_data.
    destruct (String.eqb (pg_name active) active && names_ok f && no_generics f && _) eqn:E; auto.
    rewrite !andb_true_iff in E. destruct E as [[[E1 E2] E3] E4]. destruct H as [H | [H | [H | H]]].
    - congruence.
    - apply String.eqb_eq in E1. contradiction.
    - exfalso. destruct H as (t & ts & Hin & H). unfold check_tables in E4. destruct (forallb _ (plain_schema f)) eqn:F in E4; [| discriminate].
      rewrite forallb_forall in F. specialize (F _ Hin). cbn [fst snd] in F. destruct H as [H | (pt & x & G & Hx & Hno)].
      + destruct (filter (fun t => negb (dmem String.eqb db t)) (map fst (plain_schema f))) as [| y l] eqn:Fl; [| discriminate E4].
        assert (In t []) as []. rewrite <- Fl. apply filter_In. split; [now apply (in_map fst) in Hin |]. unfold dmem. now rewrite H.
      + rewrite G in F. rewrite forallb_forall in F. specialize (F _ Hx). apply mem_str_iff in F. contradiction.
    - destruct H as (t & v & Hin & H). unfold handle_preexisting. destruct (forallb _ pre) eqn:F; auto. exfalso. rewrite forallb_forall in F. specialize (F _ Hin).
      cbn [fst snd] in F. apply andb_true_iff in F as [F1 F2]. apply mem_str_iff in F2. simpl in F2. destruct H as [H | [H1 H2]]; [congruence |].
      destruct F2 as [F2 | [F2 | []]]; congruence.
  Qed.

  Hypothesis Hd : decl_ok (f_decl f) = true.
  Hypothesis Hw : fks_within (f_fks f) (map fst (plain_schema f)).

  (** The rows written are marked active. *)
  Lemma write_marks : forall auto pre active d db db' t ts pt c, db_wf db -> obj_ok (plain_schema f) d ->
    write_data f auto pre active d db = (true, db') -> In (t, ts) (plain_schema f) -> dget String.eqb db t = Some pt ->
    active <> "" -> In c (pt_cols pt) -> c_name c = active -> c_type c = CBool ->
    exists rows, dget String.eqb db' t = Some (with_rows pt (kept_rows pre t pt ++ rows)) /\ List.length rows = List.length (full_rows (d t)) /\
      forall r, In r rows -> pg_cell pt r active = VBool true.
  Proof.
    intros auto pre active d db db' t ts pt c [Hn Hdb] Hok H Hin G Ha Hc Ec Et.
    pose proof (write_data_distinct _ _ _ _ _ _ _ _ f Hd Hw _ _ _ _ _ _ H) as Hdist.
    destruct (write_data_ok _ _ _ _ _ _ _ _ f Hd Hw _ _ _ _ _ _ H) as (N & _ & _ & A & _). destruct (A _ _ Hin) as (pt' & rows & G' & _ & G2 & F).
    rewrite G in G'. injection G' as <-. exists rows. split; [exact G2 |]. split; [symmetry; eapply Forall2_length'; eauto |].
    intros r' Hr'. destruct (Forall2_In_r _ _ _ _ F Hr') as (r & Hr & g & Hg & Hnew).
    assert (In t (active_tables db active)) as Hact.
    { apply mem_str_iff. rewrite active_mem by auto. rewrite G. apply String.eqb_neq in Ha. rewrite Ha. cbn [negb andb]. apply mem_str_iff. rewrite <- Ec. now apply in_map. }
    assert (NoDup (map c_name (pt_cols pt))) as Nc. { apply (Hdb t). now apply dget_str in G. }
    pose proof (stored_active _ _ _ _ _ _ _ _ f active (active_tables db active) t ts pt r g r' c N Hin Nc Hact Hc Ec (Hdist _ _ _ _ Hin Hr Hg) Hg Hnew) as S.
    rewrite Et in S. cbn in S. congruence.
  Qed.
End Writing.

(** The column types are determined, and exist unless a declared type allows both
    strings and numbers, or neither. *)
Theorem types_total : forall f forced t ts x, forced_ok f forced = true ->
  (forall c c', column_type f forced t ts x c -> column_type f forced t ts x c' -> c = c') /\
  ((forall dt, field_type f t x = Some dt -> datetime dt = true \/ strs_truthy (strings_allowed dt) <> number_allowed dt) ->
   exists c, column_type f forced t ts x c).
Proof.
  intros f forced t ts x Hf. split.
  - intros c c' H H'. apply fld_type_spec in H, H'; auto. congruence.
  - intros H. destruct (fld_type f forced t x (default_ctype ts x)) as [c |] eqn:E; [exists c; now apply fld_type_spec in E |].
    exfalso. unfold fld_type in E. destruct (dget tf_eqb forced (t, x)); [discriminate |].
    destruct (String.eqb t "parameters" && has_params f); [discriminate |]. destruct (field_type f t x) as [dt |]; [| discriminate].
    specialize (H dt eq_refl). destruct (datetime dt); [discriminate |]. destruct H as [H | H]; [discriminate |].
    destruct (number_allowed dt), (strs_truthy (strings_allowed dt)); cbn in *; congruence.
Qed.

(** The default of a field can be the default of a column of type [c]. *)
Inductive default_fits (pg_int : Z -> option Z) (f : factory) (forced : forced_types) (t x : string) (c : ctype) : Prop :=
| df_bool : dget tf_eqb forced (t, x) = Some "bool" \/ dget tf_eqb forced (t, x) = Some "boolean" -> default_fits pg_int f forced t x c
| df_bytea : dget tf_eqb forced (t, x) = Some "bytea" -> default_fits pg_int f forced t x c
| df_time : forall dt, dget tf_eqb forced (t, x) = None -> field_type f t x = Some dt -> datetime dt = true -> default_fits pg_int f forced t x c
| df_null : cell_default (f_defaults f) t x = VNone \/ cell_default (f_defaults f) t x = VStr "" -> default_fits pg_int f forced t x c
| df_num : forall z, cell_default (f_defaults f) t x = VNum (Fin z) ->
    c = CFloat \/ c = CText \/ c = CInteger /\ pg_int z <> None -> default_fits pg_int f forced t x c
| df_inf : forall m, cell_default (f_defaults f) t x = VNum PInf \/ cell_default (f_defaults f) t x = VNum NInf -> f_flag f = VNum (Fin m) ->
    c = CFloat \/ c = CText -> default_fits pg_int f forced t x c
| df_text : forall s, cell_default (f_defaults f) t x = VStr s -> c = CText -> quotes_paired s = true -> default_fits pg_int f forced t x c.

(** [k] refers to the whole primary key of its foreign table, with comparable types. *)
Definition whole_key (f : factory) (forced : forced_types) (k : fk) : Prop :=
  (fk_map k <> [] /\ NoDup (map fst (fk_map k))) /\
  forall ts fts, In (fk_native k, ts) (plain_schema f) -> In (fk_foreign k, fts) (plain_schema f) ->
    Permutation (map snd (fk_map k)) (tpk fts) /\
    forall n x, In (n, x) (fk_map k) -> In n (tfields ts) /\
      exists a b, column_type f forced (fk_native k) ts n a /\ column_type f forced (fk_foreign k) fts x b /\ comparable a b = true.

Section Possible.
  Variable pg_text : value -> string.
  Variable pg_num : string -> option num.
  Variable pg_stamp : string -> option Z.
  Variable pg_bool : string -> option bool.
  Variable pg_int : Z -> option Z.
  Variable pg_float : Z -> Z.
  Variable pg_other : string -> value -> option value.

  Let default_text_ok := default_text_ok pg_text pg_num pg_stamp pg_bool pg_int pg_float pg_other.

  (** The default written, for all but booleans. *)
  Definition plain_default (f : factory) (t x : string) : dexp :=
    match cell_default (f_defaults f) t x, f_flag f with
    | VNone, _ | VStr "", _ => DNull
    | VNum PInf, VNum (Fin m) => DNum (Z.abs m)
    | VNum NInf, VNum (Fin m) => DNum (- Z.abs m)
    | VStr s, _ => DText s
    | VNum (Fin z), _ => DNum z
    | VBool b, _ => DBool b
    | _, _ => DBare
    end.

  Lemma default_cases : forall f forced t x c d, forced_ok f forced = true -> fld_type f forced t x d = Ret c ->
    default_sql f forced t x = None \/
    default_sql f forced t x = Some (plain_default f t x) \/
    c = CBool /\ exists b, default_sql f forced t x = Some (DBool b).
  Proof.
    intros f forced t x c d Hf Hc. unfold default_sql, db_default. fold (plain_default f t x).
    destruct (dget tf_eqb forced (t, x)) as [s |] eqn:E.
    - unfold fld_type in Hc. rewrite E in Hc. injection Hc as <-. pose proof (forced_named _ _ _ _ _ Hf E) as N.
      set (dt := match field_type f t x with Some dt => datetime dt | None => false end) in *. clearbody dt.
      destruct N; cbv [String.eqb Ascii.eqb Bool.eqb]; cbn [andb orb];
        repeat match goal with |- context [if ?b then _ else _] => destruct b end; cbn; eauto 6.
    - cbn [andb]. destruct (match field_type f t x with Some dt => datetime dt | None => false end); cbn; auto.
  Qed.

  Lemma data_fits : forall f forced t ts x c, decl_ok (f_decl f) = true -> In (t, ts) (plain_schema f) -> In x (tdf ts) -> forced_ok f forced = true ->
    column_type f forced t ts x c -> default_fits pg_int f forced t x c ->
    exists col, data_column f forced t x = Ret col /\ default_text_ok col = true.
  Proof.
    intros f forced t ts x c Hd Ht Hx Hf Hc Hfit.
    assert (default_ctype ts x = CFloat) as Ed.
    { pose proof (proj2 (plain_wf f Hd) t ts Ht) as W. unfold wf_tschema, tfields in W. unfold default_ctype.
      destruct (mem_str x (tpk ts)) eqn:M; auto. apply mem_str_iff in M. exfalso. exact (NoDup_app_disj _ _ x W M Hx). }
    apply fld_type_spec in Hc; auto. rewrite Ed in Hc. unfold data_column. rewrite Hc. cbn [bindO]. eexists. split; [reflexivity |].
    unfold default_text_ok, Pg.default_text_ok, default_value. cbn [c_default c_type].
    destruct (default_cases _ _ _ _ _ _ Hf Hc) as [-> | [Es | (-> & b & ->)]]; [reflexivity | | reflexivity].
    destruct Hfit as [H | H | dt H1 H2 H3 | H | z H1 H2 | m H1 H2 H3 | s H1 H2 H3].
    - unfold fld_type in Hc. unfold default_sql, db_default in *. fold (plain_default f t x) in *.
      destruct H as [H | H]; rewrite H in *; cbn in Hc; injection Hc as <-; cbn in *;
        destruct (match field_type f t x with Some dt => datetime dt | None => false end); cbn; auto.
    - unfold default_sql. rewrite H. cbn. rewrite orb_true_r. reflexivity.
    - unfold default_sql. rewrite H1, H2, H3. reflexivity.
    - rewrite Es. unfold plain_default. destruct H as [-> | ->]; reflexivity.
    - rewrite Es. unfold plain_default. rewrite H1. destruct H2 as [-> | [-> | [-> H2]]]; try reflexivity. cbn. destruct (pg_int z); [reflexivity | contradiction].
    - rewrite Es. unfold plain_default. destruct H1 as [-> | ->]; rewrite H2; destruct H3 as [-> | ->]; reflexivity.
    - rewrite Es. unfold plain_default. rewrite H1. destruct s as [| a s]; [reflexivity |]. rewrite H3, H2. reflexivity.
  Qed.

  Theorem schema_creatable : forall f forced db,
    decl_ok (f_decl f) = true -> fks_within (f_fks f) (map fst (plain_schema f)) ->
    names_ok f = true -> forced_ok f forced = true -> no_generics f = true ->
    (forall t, In t (map fst (plain_schema f)) -> dget String.eqb db t = None) ->
    (forall k, In k (f_fks f) -> fk_native k <> fk_foreign k -> ~ reaches (f_fks f) (fk_foreign k) (fk_native k)) ->
    (forall t ts x, In (t, ts) (plain_schema f) -> In x (tfields ts) -> exists c, column_type f forced t ts x c /\
       (In x (tdf ts) -> default_fits pg_int f forced t x c)) ->
    (forall k, In k (f_fks f) -> whole_key f forced k) ->
    exists db', write_schema pg_text pg_num pg_stamp pg_bool pg_int pg_float pg_other f forced true db = Ret db'.
  Proof.
    intros f forced db Hd Hw Hn Hf Hg Hfree Hac Hcols Hk. apply (schema_possible _ _ _ _ _ _ _ f forced Hd Hw db); auto.
    - intros t ts x Ht Hx. destruct (Hcols t ts x Ht) as (c & Hc & _); [unfold tfields; apply in_or_app; auto |].
      apply fld_type_spec in Hc; auto. unfold default_ctype in Hc. rewrite (proj2 (mem_str_iff _ _) Hx) in Hc.
      unfold key_column. rewrite Hc. cbn. eauto.
    - intros t ts x Ht Hx. destruct (Hcols t ts x Ht) as (c & Hc & Hfit); [unfold tfields; apply in_or_app; auto |].
      eapply data_fits; eauto.
    - intros k Hin. destruct (Hk k Hin) as (A & B). split; auto. intros ts fts H1 H2. destruct (B ts fts H1 H2) as (C & D). split; auto.
      intros n x H. destruct (D n x H) as (F & a & b & G1 & G2 & G3). split; auto. exists a, b. rewrite !fld_type_spec by auto. auto.
  Qed.
End Possible.
