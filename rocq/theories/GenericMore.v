(** * Generic tables: files that exist, names, SQL text files, Excel. *)
From Coq Require Import ZArith Bool List String Ascii Arith Lia Permutation.
From Verif Require Import PyVal PyValFacts PyDict PyDictFacts PyStr ListFacts TypeDict Data FindTypes FindTypesFacts FK Graph GraphFacts Obj ObjFacts ObjMore
  Factory FactoryFacts InfIO InfIOFacts Params Names NamesFacts Utils UtilsMore Ampl Json ObjRows JsonFacts TripFacts Sql SqlFacts Csv CsvRows CsvMore
  Pg PgFacts PgWrite PgTrip FileDb FileDbFacts FileDbTrip FileDbWrite Xls XlsFacts Generic GenericFacts GenericSql.
Import ListNotations.
Local Open Scope string_scope.
Local Open Scope list_scope.

Section More.
  Variable date_of : value -> option Z.
  Variable float_of : value -> option value.
  Variable show_date : Z -> string.
  Variable store : string -> value -> option value.
  Variable key_free : list (list value) -> list value -> bool.
  Variable sql_default : value -> value.
  Variable pragma_name : string -> bool.
  Variable saved : value -> outcome value.
  Variable f : factory.
  Variable g : generics.

  (** A file that exists: what each table has afterwards. *)
  Theorem gen_sql_old : forall allow d db p, decl_ok (f_decl f) = true -> has_generics f = true -> frames_ok f g -> obj_ok (plain_schema f) d ->
    gen_sql_write date_of store key_free sql_default f allow g d (Some db) = (true, p) ->
    exists db', p = Some db' /\
      (forall t ts, In (t, ts) (plain_schema f) -> exists dt rows, find_table db t = Some dt /\ find_table db' t = Some (set_rows dt rows) /\
         Forall2 (row_as store (fun _ v => Ret (bare_cell ts v)) ts dt) (full_rows (d t)) rows) /\
      (forall t, In t (generic_tables f) -> g_rows (g t) <> [] -> exists dt rows, find_table db t = Some dt /\ find_table db' t = Some (set_rows dt rows) /\
         Forall2 (row_as store (fun _ v => Ret v) (mkT [] (g_cols (g t))) dt) (g_rows (g t)) rows) /\
      (forall t, In t (generic_tables f) -> g_rows (g t) = [] -> find_table db' t = find_table db t).
  Proof.
    intros allow d db p Hd Hg Hfr Hok H. unfold gen_sql_write in H. rewrite Hg in H. destruct (free_exists f g Hd Hfr) as (f' & Hf). rewrite Hf in H.
    pose proof (free_spec f g f' Hf) as (Hd' & Ed' & Es & _).
    destruct (sql_written store key_free date_of f' allow (free_obj f g d) db p) with (sql_default := sql_default) as (db' & Ep & _ & [Ho Hn] & _); auto.
    { eapply free_obj_ok; eauto. }
    assert (forall t ts dt r s, row_as store (sql_cell date_of f' t ts) ts dt r s -> row_as store (fun _ v => Ret (bare_cell ts v)) ts dt r s) as Hrow.
    { intros t ts dt r s [A B]. split; auto. intros c u Hc. destruct (B c u Hc) as [(x & v & w & X & Y & Z & S) | X]; auto.
      left. exists x, v, w. rewrite (free_sql_cell date_of f g f' t ts x v Hf) in Z. auto. }
    exists db'. split; auto. split; [| split].
    - intros t ts Hin. destruct (Ho t ts) as (dt & rows & A & B & C). { rewrite Es. apply in_app_iff. auto. }
      rewrite (free_obj_plain f g d t ts Hd Hin) in C. exists dt, rows. split; auto. split; auto. eapply Forall2_imp; [| exact C]. cbn beta. intros r s _ R. now apply (Hrow t).
    - intros t Hin Hne. destruct (Ho t (mkT [] (g_cols (g t)))) as (dt & rows & A & B & C).
      { rewrite Es. apply in_app_iff. right. apply in_map_iff. exists t. split; auto. now apply filled_In. }
      rewrite (free_obj_generic f g d t Hd Hin) in C. exists dt, rows. auto.
    - intros t Hin He. apply Hn. intros u Hu E.
      assert (map fst (plain_schema f') = map fst (plain_schema f) ++ filled f g) as En. { rewrite Es, map_app, map_map. cbn [fst]. now rewrite map_id. }
      rewrite En in Hu. pose proof (decl_ok_legal (f_decl f) Hd) as Hlegal.
      assert (u = t) as ->.
      { eapply legal_inj; [exact Hlegal | | | exact E]; apply names_split; auto. apply in_app_iff in Hu as [Hu | Hu]; auto. apply filled_In in Hu. tauto. }
      apply in_app_iff in Hu as [Hu | Hu].
      + apply in_map_iff in Hu as ([t1 ts1] & E1 & Hu). cbn [fst] in E1. subst t1. pose proof (plain_not_generic f t ts1 Hd Hu) as X. rewrite (generic_is f t Hd Hin) in X. discriminate.
      + apply filled_In in Hu. tauto.
  Qed.

  (** A new file. *)
  Theorem gen_sql_made : forall allow d p, decl_ok (f_decl f) = true -> has_generics f = true -> frames_ok f g -> obj_ok (plain_schema f) d ->
    gen_sql_write date_of store key_free sql_default f allow g d None = (true, p) ->
    exists db, p = Some db /\
      (forall t ts, In (t, Fields ts) (f_decl f) -> exists dt, find_table db t = Some dt /\
         map dc_name (dt_cols dt) = tfields ts /\ dt_key dt = tpk ts /\
         (forall c, In c (dt_cols dt) -> In (dc_name c) (tdf ts) -> dc_type c = "INT") /\
         Forall2 (row_as store (fun _ v => Ret (bare_cell ts v)) ts dt) (full_rows (d t)) (dt_rows dt)) /\
      (forall t, In (t, Generic) (f_decl f) -> g_rows (g t) <> [] -> exists dt, find_table db t = Some dt /\
         map dc_name (dt_cols dt) = g_cols (g t) /\ dt_key dt = [] /\
         (forall c, In c (dt_cols dt) -> dc_type c = "INT") /\
         Forall2 (row_as store (fun _ v => Ret v) (mkT [] (g_cols (g t))) dt) (g_rows (g t)) (dt_rows dt)) /\
      (forall t, In (t, Generic) (f_decl f) -> g_rows (g t) = [] -> find_table db t = None).
  Proof.
    intros allow d p Hd Hg Hfr Hok H.
    destruct (gen_sql_new date_of store key_free sql_default f g allow d p) as (f' & db0 & db & Hf & -> & _ & Hwf & Htab & Hno & [Ho Hn]); auto.
    pose proof (free_spec f g f' Hf) as (Hd' & Ed' & Es & _).
    assert (forall t ts dt r s, row_as store (sql_cell date_of f' t ts) ts dt r s -> row_as store (fun _ v => Ret (bare_cell ts v)) ts dt r s) as Hrow.
    { intros t ts dt r s [A B]. split; auto. intros c u Hc. destruct (B c u Hc) as [(x & v & w & X & Y & Z & S) | X]; auto.
      left. exists x, v, w. rewrite (free_sql_cell date_of f g f' t ts x v Hf) in Z. auto. }
    exists db. split; auto. split; [| split].
    - intros t ts Hin. apply plain_In in Hin. assert (In (t, ts) (plain_schema f')) as Hin' by (rewrite Es; apply in_app_iff; auto).
      destruct (Ho t ts Hin') as (dt & rows & A & B & C). rewrite (Htab _ _ Hin') in A. injection A as <-.
      rewrite (free_obj_plain f g d t ts Hd Hin) in C. exists (set_rows (sql_table sql_default f' t ts) rows). split; auto.
      split; [apply (sql_cols sql_default f' t ts) |]. split; [reflexivity |]. split.
      + intros c Hc Hx. destruct (free_cols sql_default f g f' t ts c Hf Hin' Hc) as (_ & [[Hk _] | [_ Et]]); auto.
        exfalso. destruct (plain_fields f t ts Hd Hin) as [_ N]. unfold tfields in N. apply NoDup_lower in N. eapply NoDup_app_disj; eauto.
      + eapply Forall2_imp; [| exact C]. cbn beta. intros r s _ R. apply Hrow in R. exact R.
    - intros t Hin Hne. apply generic_In in Hin. set (ts := mkT [] (g_cols (g t))).
      assert (In (t, ts) (plain_schema f')) as Hin'. { rewrite Es. apply in_app_iff. right. apply in_map_iff. exists t. split; auto. now apply filled_In. }
      destruct (Ho t ts Hin') as (dt & rows & A & B & C). rewrite (Htab _ _ Hin') in A. injection A as <-.
      rewrite (free_obj_generic f g d t Hd Hin) in C. exists (set_rows (sql_table sql_default f' t ts) rows). split; auto.
      split; [apply (sql_cols sql_default f' t ts) |]. split; [reflexivity |]. split; [| exact C].
      intros c Hc. destruct (free_cols sql_default f g f' t ts c Hf Hin' Hc) as (_ & [[[] _] | [_ Et]]); auto.
    - intros t Hin He. apply generic_In in Hin.
      assert (forall u, In u (map fst (plain_schema f')) -> lower u <> lower t) as Hx; [| rewrite Hn; auto].
      intros u Hu E.
      assert (map fst (plain_schema f') = map fst (plain_schema f) ++ filled f g) as En. { rewrite Es, map_app, map_map. cbn [fst]. now rewrite map_id. }
      rewrite En in Hu. pose proof (decl_ok_legal (f_decl f) Hd) as Hlegal.
      assert (u = t) as ->.
      { eapply legal_inj; [exact Hlegal | | | exact E]; apply names_split; auto. apply in_app_iff in Hu as [Hu | Hu]; auto. apply filled_In in Hu. tauto. }
      apply in_app_iff in Hu as [Hu | Hu].
      + apply in_map_iff in Hu as ([t1 ts1] & E1 & Hu). cbn [fst] in E1. subst t1. pose proof (plain_not_generic f t ts1 Hd Hu) as X. rewrite (generic_is f t Hd Hin) in X. discriminate.
      + apply filled_In in Hu. tauto.
  Qed.

  (** A generic table that is in the file under another name, or that has a name that needs brackets, is not read. *)
  Theorem gen_sql_other_name : forall db t n, In t (generic_tables f) -> get_db_table (map fst db) t = Ret (Some n) ->
    find_table db t = None \/ pragma_name t = false -> gen_sql_read date_of float_of pragma_name f db = Raise.
  Proof.
    intros db t n Hin Hn H. unfold gen_sql_read. destruct (sql_read_file date_of float_of f db) as [d |]; auto. cbn [bindO].
    rewrite (mapO_raise _ _ t Hin); auto. rewrite Hn. cbn [bindO]. unfold gen_sql_frame. destruct H as [-> | ->].
    - destruct (pragma_name t); reflexivity.
    - reflexivity.
  Qed.

  (** SQL text files never create the table of an empty generic table. *)
  Lemma script_no_table : forall b t, decl_ok (f_decl f) = true -> In t (generic_tables f) -> g_rows (g t) = [] -> ~ In t (gen_script_tables f b g).
  Proof.
    intros b t Hd Hin He Hs. unfold gen_script_tables in Hs.
    assert (has_generics f = true) as Hg. { unfold has_generics. destruct (generic_tables f); [contradiction | auto]. }
    rewrite Hg in Hs. apply filter_In in Hs as [Hs _]. rewrite decl_names in Hs. apply in_app_iff in Hs as [Hs | Hs].
    - apply in_map_iff in Hs as ([t1 ts1] & E1 & Hs). cbn [fst] in E1. subst t1. pose proof (plain_not_generic f t ts1 Hd Hs) as X. rewrite (generic_is f t Hd Hin) in X. discriminate.
    - apply filled_In in Hs. tauto.
  Qed.

  Theorem gen_script_fails : forall b t db, decl_ok (f_decl f) = true -> In t (generic_tables f) -> g_rows (g t) = [] ->
    (forall n dt, In (n, dt) db -> exists u, (In u (map fst (plain_schema f)) \/ In u (gen_script_tables f b g)) /\ lower u = lower n) ->
    gen_con_frames date_of float_of pragma_name f db = Raise.
  Proof.
    intros b t db Hd Hin He Hdb. unfold gen_con_frames. apply (mapO_raise _ _ t Hin).
    assert (find_table db t = None) as Hnone.
    { apply dget_None. intros n dt Hn. apply same_neq. intros E. destruct (Hdb n dt Hn) as (u & Hu & Eu).
      pose proof (decl_ok_legal (f_decl f) Hd) as Hlegal.
      assert (In u (map fst (plain_schema f) ++ filled f g)) as Hu'.
      { destruct Hu as [Hu | Hu]; [apply in_app_iff; auto |]. unfold gen_script_tables in Hu.
        assert (has_generics f = true) as Hg. { unfold has_generics. destruct (generic_tables f); [contradiction | auto]. }
        rewrite Hg in Hu. apply filter_In in Hu as [Hu _]. now rewrite decl_names in Hu. }
      assert (u = t) as ->.
      { eapply legal_inj; [exact Hlegal | | | congruence]; apply names_split; auto. apply in_app_iff in Hu' as [Hu' | Hu']; auto. apply filled_In in Hu'. tauto. }
      apply in_app_iff in Hu' as [Hu' | Hu'].
      + apply in_map_iff in Hu' as ([t1 ts1] & E1 & Hu'). cbn [fst] in E1. subst t1. pose proof (plain_not_generic f t ts1 Hd Hu') as X. rewrite (generic_is f t Hd Hin) in X. discriminate.
      + apply filled_In in Hu'. tauto. }
    unfold gen_sql_frame. rewrite Hnone. destruct (pragma_name t); reflexivity.
  Qed.

  Theorem gen_con_read : forall db,
    (forall t, In (t, Generic) (f_decl f) -> pragma_name t = true /\ g_rows (g t) <> [] /\ exists dt, find_table db t = Some dt /\
       map dc_name (dt_cols dt) = g_cols (g t) /\ NoDup (map lower (g_cols (g t))) /\
       Forall2 (fun s r => List.length s = List.length (g_cols (g t)) /\
                  Forall2 (fun xs v => read_data_cell date_of float_of f t (fst xs) (snd xs) = Ret v) (combine (g_cols (g t)) s) r) (dt_rows dt) (g_rows (g t))) ->
    gen_con_frames date_of float_of pragma_name f db = Ret (map (fun t => (t, g t)) (generic_tables f)).
  Proof.
    intros db H. unfold gen_con_frames.
    assert (forall t, In t (generic_tables f) -> gen_sql_frame date_of float_of pragma_name f db t t = Ret (g t)) as A.
    { intros t Hin. apply generic_In in Hin. destruct (H t Hin) as (Hp & Hne & dt & F & Ec & N & R). unfold gen_sql_frame. rewrite Hp, F. cbv zeta. rewrite Ec.
      assert (forallb (has_col dt) (g_cols (g t)) = true) as ->.
      { apply forallb_forall. intros x Hx. unfold has_col. apply existsb_exists. rewrite <- Ec in Hx. apply in_map_iff in Hx as (c & <- & Hc). exists c. split; auto. apply same_refl. }
      assert (forall s : list value, List.length s = List.length (g_cols (g t)) -> map (db_cell dt s) (g_cols (g t)) = s) as Hsel.
      { unfold db_cell. rewrite Ec. clear - N. intros s L. revert s L. induction (g_cols (g t)) as [| x cols IH]; intros [| v s] L; try discriminate; auto.
        cbn [map] in N. apply NoDup_cons_iff in N as [N1 N2]. cbn [map combine]. f_equal.
        - unfold dget_or. cbn [dget]. now rewrite same_refl.
        - etransitivity; [| apply (IH N2 s); now injection L]. apply map_ext_in. intros y Hy. unfold dget_or. cbn [dget].
          assert (same_name x y = false) as ->; auto. apply same_neq. intros E. apply N1. rewrite E. now apply in_map. }
      assert (mapO (fun r => mapO (fun xv => read_data_cell date_of float_of f t (fst xv) (snd xv)) (combine (g_cols (g t)) r)) (db_select dt (g_cols (g t))) = Ret (g_rows (g t))) as ->.
      { unfold db_select. apply mapO_Forall2. clear Hne F. induction R as [| s r rows rs [L R] _ IH]; simpl; constructor; auto. rewrite (Hsel s L). now apply mapO_Forall2. }
      cbn [bindO]. unfold frame_from. destruct (g t) as [cols rows]. cbn [g_rows g_cols] in *. destruct rows; [contradiction | reflexivity]. }
    clear H. induction (generic_tables f) as [| t l IH]; auto. cbn [mapO map]. rewrite A by (simpl; auto). cbn [bindO]. rewrite IH; auto. intros; apply A; simpl; auto.
  Qed.

  (** ** Excel *)

  (** The sheets of an object with generic tables: the values as they are, infinities as text. *)
  Definition plain_clean (xls : bool) (v : value) : value :=
    match v with
    | VDate d => VStr (show_date d)
    | VNum PInf => if xls then v else VStr "inf"
    | VNum NInf => if xls then v else VStr "-inf"
    | _ => v
    end.
  Lemma free_clean : forall f' xls t x v, free_factory f g = Some f' -> clean_for_write date_of show_date f' xls t x v = Ret (plain_clean xls v).
  Proof.
    intros f' xls t x v Hf. unfold clean_for_write, plain_clean. pose proof (free_write date_of f g f' t x v Hf) as E.
    pose proof (free_spec f g f' Hf) as (_ & _ & _ & _ & _ & Hfl & Hp & _). destruct xls.
    - destruct v as [| | | [| |] | |]; auto.
    - rewrite Hfl. unfold treats_params, has_params. rewrite Hp. cbn [List.length Nat.eqb negb]. rewrite andb_false_r.
      assert (value_eqb (VStr "N/A") (VStr "N/A") = true) as -> by reflexivity. cbn [negb orb bindO]. destruct v as [| | | [| |] | |]; auto.
  Qed.

  Theorem gen_xls_written : forall xls pretty d book, decl_ok (f_decl f) = true -> has_generics f = true -> frames_ok f g -> obj_ok (plain_schema f) d ->
    gen_xls_write date_of show_date saved f xls pretty g d = Ret book ->
    map fst book = map (sheet_name pretty (map fst (plain_schema f) ++ filled f g)) (map fst (plain_schema f) ++ filled f g) /\
    Forall2 (fun tr ns => exists rows, snd ns = mkSheet 1 (map VStr (fst tr) :: rows) /\
        Forall2 (fun r r' => mapO (fun v => saved (plain_clean xls v)) r = Ret r') (snd tr) rows)
      (map (fun tts : string * tschema => (tfields (snd tts), full_rows (d (fst tts)))) (plain_schema f) ++ map (fun t => (g_cols (g t), g_rows (g t))) (filled f g)) book.
  Proof.
    intros xls pretty d book Hd Hg Hfr Hok H. unfold gen_xls_write in H. destruct (sheets_differ (map fst (f_decl f))); [| discriminate].
    rewrite Hg in H. destruct (free_exists f g Hd Hfr) as (f' & Hf). rewrite Hf in H.
    pose proof (free_spec f g f' Hf) as (Hd' & Ed' & Es & _). pose proof (free_obj_ok f g d f' Hd Hfr Hok Hf) as Hok'.
    unfold xls_write in H. apply bindO_ret in H as (names & _ & H). apply mapO_Forall2 in H.
    assert (map fst (f_decl f') = map fst (plain_schema f) ++ filled f g) as En by (rewrite Ed'; apply decl_names).
    assert (map fst (plain_schema f') = map fst (plain_schema f) ++ filled f g) as Ep. { rewrite Es, map_app, map_map. cbn [fst]. now rewrite map_id. }
    split.
    - rewrite <- Ep at 2. rewrite <- En. clear - H. revert H. generalize (sheet_name pretty (map fst (f_decl f'))) as nm. intros nm H.
      induction H as [| [t ts] ns sch book H _ IH]; auto. cbn [map fst]. rewrite IH. f_equal. cbn [fst snd] in H. apply bindO_ret in H as (s & _ & E). now injection E as <-.
    - assert (map (fun tts : string * tschema => (tfields (snd tts), full_rows (d (fst tts)))) (plain_schema f) ++ map (fun t => (g_cols (g t), g_rows (g t))) (filled f g)
        = map (fun tts : string * tschema => (tfields (snd tts), full_rows (free_obj f g d (fst tts)))) (plain_schema f')) as ->.
      { rewrite Es, map_app, map_map. f_equal.
        - apply map_ext_in. intros [t ts] Hin. cbn [fst snd]. now rewrite (free_obj_plain f g d t ts Hd Hin).
        - apply map_ext_in. intros t Hin. cbn [fst snd]. apply filled_In in Hin as [Hin _]. now rewrite (free_obj_generic f g d t Hd Hin). }
      unfold obj_ok in Hok'. clear - H Hok' Hf. revert H Hok'. generalize (sheet_name pretty (map fst (f_decl f'))) as nm. intros nm H. induction H as [| [t ts] ns sch book H _ IH]; intros Hok'; constructor.
      + cbn [fst snd] in *. apply bindO_ret in H as (s & H & E). injection E as <-. cbn [snd]. unfold xls_sheet in H. apply bindO_ret in H as (rows & H & E).
        injection E as <-. exists rows. split; auto. apply mapO_Forall2 in H.
        assert (forall r, In r (full_rows (free_obj f g d t)) -> List.length r = List.length (tfields ts)) as L by (intros r; apply full_length; apply Hok'; simpl; auto).
        revert L H. generalize (full_rows (free_obj f g d t)) as l. intros l L H. induction H as [| r r' l rows H _ IH']; constructor.
        * rewrite <- H. specialize (L r (or_introl eq_refl)). clear - L Hf. revert r L. induction (tfields ts) as [| x fs IH]; intros [| v r] L; try discriminate; auto.
          cbn [combine mapO fst snd]. rewrite (free_clean f' xls t x v Hf). cbn [bindO]. rewrite (IH r) by (now injection L). reflexivity.
        * apply IH'. intros; apply L; simpl; auto.
      + apply IH. intros; apply Hok'; simpl; auto.
  Qed.
End More.
