(** * SQLite files of objects with generic tables. *)
From Coq Require Import ZArith Bool List String Ascii Arith Lia Permutation.
From Verif Require Import PyVal PyValFacts PyDict PyDictFacts PyStr ListFacts TypeDict Data FindTypes FindTypesFacts FK Graph GraphFacts Obj ObjFacts ObjMore
  Factory FactoryFacts InfIO InfIOFacts Params Names NamesFacts Utils UtilsMore Ampl Json ObjRows JsonFacts TripFacts Sql SqlFacts Csv CsvMore
  Pg PgFacts PgWrite PgTrip FileDb FileDbFacts FileDbTrip FileDbWrite Xls Generic GenericFacts.
Import ListNotations.
Local Open Scope string_scope.
Local Open Scope list_scope.

Lemma db_missing : forall (db : list string) t, has_char " "%char t = false ->
  (forall n, In n db -> unspace n <> lower t) -> get_db_table db t = Ret None.
Proof.
  intros db t Hs H. unfold get_db_table.
  assert (filter (try_name db) (all_underscore_replacements t) = []) as ->; auto.
  apply filter_none'. intros y Hy. apply not_true_iff_false. intros Hp. apply replacements_iff in Hy. apply mem_str_iff, in_map_iff in Hp.
  destruct Hp as (n & En & Hn). apply (H n Hn). rewrite (lower_unspace_eq _ _ En). now apply variant_unspace.
Qed.

Section Sql.
  Variable date_of : value -> option Z.
  Variable float_of : value -> option value.
  Variable store : string -> value -> option value.
  Variable key_free : list (list value) -> list value -> bool.
  Variable sql_default : value -> value.
  Variable pragma_name : string -> bool.
  Variable f : factory.
  Variable g : generics.

  (** What is given to the file for a cell of a table with fields: the text of a boolean if the table has a key. *)
  Definition bare_cell (ts : tschema) (v : value) : value :=
    match tpk ts, v with
    | _ :: _, VBool b => VStr (if b then "True" else "False")
    | _, _ => v
    end.
  (** The type of the column of a field in a file made by the call. *)
  Definition bare_type (ts : tschema) (x : string) : string := if mem_str x (tpk ts) then "" else "INT".
  (** A cell is written to a new file, stored by its column, and read. *)
  Definition bare_trip (t : string) (ts : tschema) (x : string) (v w : value) : Prop :=
    forall s, store (bare_type ts x) (bare_cell ts v) = Some s -> read_data_cell date_of float_of f t x s = Ret w.
  Definition gen_cells_stored : Prop := forall t r x v, In t (generic_tables f) -> In r (g_rows (g t)) -> In (x, v) (combine (g_cols (g t)) r) ->
    forall s, store "INT" v = Some s -> read_data_cell date_of float_of f t x s = Ret v.

  Lemma free_sql_cell : forall f' t ts x v, free_factory f g = Some f' -> sql_cell date_of f' t ts x v = Ret (bare_cell ts v).
  Proof.
    intros f' t ts x v Hf. unfold sql_cell, bare_cell, write_data_cell. pose proof (free_write date_of f g f' t x v Hf) as E.
    destruct (tpk ts); auto. destruct v; auto.
  Qed.

  Lemma free_type : forall f' t ts x, free_factory f g = Some f' -> In (t, ts) (plain_schema f') -> In x (tdf ts) -> sql_type f' t x = "INT".
  Proof.
    intros f' t ts x Hf Hin Hx. pose proof (free_spec f g f' Hf) as (Hd & _ & _ & _ & _ & _ & Hp & _).
    unfold sql_type, has_params. rewrite Hp. cbn [List.length Nat.eqb negb]. rewrite andb_false_r.
    assert (f_defaults f' = zero_defaults (f_decl f')) as ->.
    { unfold free_factory, init in Hf. destruct (decl_ok (free_decl f g)); [| discriminate]. injection Hf as <-. reflexivity. }
    unfold cell_default.
    assert (dget2 (zero_defaults (f_decl f')) t x = Some (VNum (of_int 0)) \/ dget2 (zero_defaults (f_decl f')) t x = None) as [-> | ->]; auto.
    destruct (zero_defaults_get (f_decl f') t x Hd) as [A B].
    left. apply A. exists ts. split; auto. apply plain_In in Hin. apply In_dget; auto; [apply String.eqb_refl |].
    apply (keys_distinct_NoDup String.eqb String.eqb_eq). apply legal_NoDup. now apply decl_ok_legal.
  Qed.

  Lemma free_cols : forall f' t ts c, free_factory f g = Some f' -> In (t, ts) (plain_schema f') -> In c (dt_cols (sql_table sql_default f' t ts)) ->
    In (dc_name c) (tfields ts) /\ (In (dc_name c) (tpk ts) /\ dc_type c = "" \/ In (dc_name c) (tdf ts) /\ dc_type c = "INT").
  Proof.
    intros f' t ts c Hf Hin Hc. unfold sql_table in Hc. cbn [dt_cols] in Hc. unfold tfields. rewrite in_app_iff.
    apply in_app_iff in Hc as [Hc | Hc]; apply in_map_iff in Hc as (x & <- & Hx); cbn [dc_name dc_type]; auto.
    split; auto. right. split; auto. eapply free_type; eauto.
  Qed.

  (** The tables of a new file. *)
  Theorem gen_sql_new : forall allow d p, decl_ok (f_decl f) = true -> has_generics f = true -> frames_ok f g -> obj_ok (plain_schema f) d ->
    gen_sql_write date_of store key_free sql_default f allow g d None = (true, p) ->
    exists f' db0 db, free_factory f g = Some f' /\ p = Some db /\ all_found f' db0 /\ file_wf db0 /\
      (forall t ts, In (t, ts) (plain_schema f') -> find_table db0 t = Some (sql_table sql_default f' t ts)) /\
      (forall n, (forall t, In t (map fst (plain_schema f')) -> lower t <> lower n) -> find_table db0 n = None) /\
      holds_object store f' (sql_cell date_of f') (free_obj f g d) db0 db.
  Proof.
    intros allow d p Hd Hg Hfr Hok H. unfold gen_sql_write in H. rewrite Hg in H. destruct (free_exists f g Hd Hfr) as (f' & Hf). rewrite Hf in H.
    pose proof (free_spec f g f' Hf) as (Hd' & _ & _ & _ & _ & _ & _ & Hk & _).
    destruct (sql_new_file store key_free date_of sql_default f' Hd') as (db0 & _ & A & B & C & D & E).
    { rewrite Hk. intros t u (k & [] & _). }
    { rewrite Hk. intros k []. }
    rewrite E in H. destruct (sql_written store key_free date_of f' allow (free_obj f g d) db0 p) with (sql_default := sql_default) as (db & Ep & _ & Ho & _); auto.
    { eapply free_obj_ok; eauto. }
    exists f', db0, db. auto 10.
  Qed.

  Theorem gen_sql_trip : forall allow d p, decl_ok (f_decl f) = true -> has_generics f = true -> frames_ok f g ->
    obj_ok (plain_schema f) d -> obj_keys (plain_schema f) d -> proper_keys (plain_schema f) d ->
    cells_kept f bare_trip d -> params_kept date_of float_of f bare_trip d -> gen_cells_stored ->
    (forall t, In t (generic_tables f) -> g_rows (g t) <> [] -> pragma_name t = true) ->
    gen_sql_write date_of store key_free sql_default f allow g d None = (true, p) ->
    exists db, p = Some db /\ forall db', same_file db db' ->
    exists e l, gen_sql_read date_of float_of pragma_name f db' = Ret (e, l) /\
      (forall t ts, In (t, ts) (plain_schema f) -> reordered (e t) (d t)) /\
      map fst l = generic_tables f /\
      forall t fr, In (t, fr) l -> g_cols fr = g_cols (frame_from (g_cols (g t)) (g_rows (g t))) /\ Permutation (g_rows fr) (g_rows (g t)).
  Proof.
    intros allow d p Hd Hgen Hfr Hok Hks Hpr Hc Hp Hg Hpn H.
    destruct (gen_sql_new allow d p) as (f' & db0 & db & Hf & -> & Hfound & Hwf0 & Htab & Hno & Hold); auto.
    exists db. split; auto. intros db' Hlike. pose proof (free_spec f g f' Hf) as (Hd' & Ed' & Es & Hpl & _).
    assert (forall t ts, In (t, ts) (plain_schema f) -> In (t, ts) (plain_schema f')) as Hsub.
    { intros t ts Hin. rewrite Es. apply in_app_iff. auto. }
    set (W := sql_cell date_of f').
    assert (forall t ts x v w, In (t, ts) (plain_schema f) -> In x (tfields ts) -> bare_trip t ts x v w -> file_trip store f (read_data_cell date_of float_of) W db0 t ts x v w) as Htrip.
    { intros t ts x v w Hin Hx T dt c F Hcol E u s Hu Hs. rewrite (Htab _ _ (Hsub _ _ Hin)) in F. injection F as <-.
      unfold W in Hu. rewrite (free_sql_cell f' t ts x v Hf) in Hu. injection Hu as <-.
      destruct (plain_fields f t ts Hd Hin) as [_ Hnf].
      destruct (free_cols f' t ts c Hf (Hsub _ _ Hin) Hcol) as (Hn & Hty).
      assert (dc_name c = x) as Ex by (now apply (NoDup_map_inj_in lower (tfields ts))). rewrite Ex in *. clear E.
      apply T. unfold bare_type. destruct Hty as [[Hk Et] | [Hk Et]]; rewrite Et in Hs.
      - apply mem_str_iff in Hk. rewrite Hk. exact Hs.
      - assert (mem_str x (tpk ts) = false) as ->; [| exact Hs]. apply not_true_iff_false. intros M. apply mem_str_iff in M.
        unfold tfields in Hnf. apply NoDup_lower in Hnf. eapply NoDup_app_disj; eauto. }
    destruct Hold as [Hrows Hoth].
    destruct (file_back store date_of float_of f (read_data_cell date_of float_of) W d db0 db db') as (e & Ee & He); auto.
    { intros t ts Hin. destruct (Hfound _ _ (Hsub _ _ Hin)) as (A & dt & B & C). split; auto. eauto. }
    { intros t ts r x v Hin Hpar Hr Hx. apply Htrip; auto; [| eapply Hc; eauto]. eapply in_combine_l; eauto. }
    { intros Hpar ts Hin. destruct (Hp Hpar ts Hin) as (k & q & l & -> & E & Hl). exists k, q, l. split; auto. split; auto.
      intros k' r Hk. destruct (Hl k' r Hk) as (a & v & w & A & B & C & D & G). exists a, v, w. unfold tfields in Htrip. repeat (split; [auto; apply Htrip; simpl; auto |]). exact G. }
    { eapply holds_tables. split; [exact Hrows | exact Hoth]. }
    { intros t ts Hin. destruct (Hrows _ _ (Hsub _ _ Hin)) as (dt & rows & A & B & C). rewrite (free_obj_plain f g d t ts Hd Hin) in C. eauto. }
    assert (same_tables db0 db') as Hst.
    { eapply same_tables_trans; [| apply same_file_tables; exact Hlike]. eapply holds_tables. split; [exact Hrows | exact Hoth]. }
    pose proof (decl_ok_legal (f_decl f) Hd) as Hlegal.
    set (rd := fun t => bindO (get_db_table (map fst db') t) (fun o =>
               match o with
               | None => Ret (t, mkG [] [])
               | Some n => bindO (gen_sql_frame date_of float_of pragma_name f db' t n) (fun fr => Ret (t, fr))
               end)).
    assert (forall t, In t (generic_tables f) -> exists fr, rd t = Ret (t, fr) /\
       g_cols fr = g_cols (frame_from (g_cols (g t)) (g_rows (g t))) /\ Permutation (g_rows fr) (g_rows (g t))) as Hrd.
    { intros t Hin. unfold rd. rewrite <- (get_db_ext db0 db' t) by (now apply same_tables_none). destruct (g_rows (g t)) as [| r0 rows0] eqn:Er.
      - rewrite db_missing.
        + exists (mkG [] []). auto.
        + apply Hlegal. apply names_split. auto.
        + intros n Hn Eu.
          assert (exists t', In t' (map fst (plain_schema f')) /\ lower t' = lower n) as (t' & Ht' & El).
          { destruct (existsb (fun u => same_name u n) (map fst (plain_schema f'))) eqn:Ex.
            - apply existsb_exists in Ex as (u & Hu & S). exists u. split; auto. now apply same_iff.
            - exfalso. assert (find_table db0 n = None) as Fn.
              { apply Hno. intros u Hu E. apply not_true_iff_false in Ex. apply Ex. apply existsb_exists. exists u. split; auto. now apply same_iff. }
              apply in_map_iff in Hn as ([n' dt] & E & Hn). cbn [fst] in E. subst n'. unfold find_table in Fn. rewrite dget_None in Fn.
              specialize (Fn n dt Hn). now rewrite same_refl in Fn. }
          assert (map fst (plain_schema f') = map fst (plain_schema f) ++ filled f g) as En.
          { rewrite Es, map_app, map_map. cbn [fst]. now rewrite map_id. }
          rewrite En in Ht'.
          assert (In t' (map fst (f_decl f))) as Hd2. { apply names_split. apply in_app_iff in Ht' as [Ht' | Ht']; auto. apply filled_In in Ht'. tauto. }
          assert (t = t') as <-.
          { eapply legal_inj; [exact Hlegal | apply names_split; auto | exact Hd2 |].
            rewrite <- Eu, <- (lower_unspace_eq _ _ El). apply unspace_nospace. now apply Hlegal. }
          apply in_app_iff in Ht' as [Ht' | Ht'].
          * apply in_map_iff in Ht' as ([t1 ts1] & E & Ht'). cbn [fst] in E. subst t1. pose proof (plain_not_generic f t ts1 Hd Ht') as X. rewrite (generic_is f t Hd Hin) in X. discriminate.
          * apply filled_In in Ht'. tauto.
      - assert (g_rows (g t) <> []) as Hne by (rewrite Er; discriminate).
        set (ts := mkT [] (g_cols (g t))).
        assert (In (t, ts) (plain_schema f')) as Hin'.
        { rewrite Es. apply in_app_iff. right. apply in_map_iff. exists t. split; auto. now apply filled_In. }
        destruct (Hfound _ _ Hin') as (-> & dt & F & Hcol). cbn [bindO]. unfold gen_sql_frame. rewrite Hpn; auto.
        destruct (Hrows _ _ Hin') as (dt' & rows & F' & G & R). rewrite F in F'. injection F' as <-. rewrite (free_obj_generic f g d t Hd Hin) in R. cbn [full_rows] in R.
        pose proof (Hlike t) as Hl. rewrite G in Hl. destruct Hl as (rows3 & -> & P). cbn [dt_rows set_rows] in P. cbv zeta.
        rewrite (Htab _ _ Hin') in F. injection F as <-.
        set (dt := sql_table sql_default f' t ts) in *.
        assert (map dc_name (dt_cols dt) = g_cols (g t)) as Ecols by (unfold dt; now rewrite sql_cols).
        change (set_rows (set_rows dt rows) rows3) with (set_rows dt rows3). change (dt_cols (set_rows dt rows3)) with (dt_cols dt). rewrite Ecols.
        assert (forallb (has_col (set_rows dt rows3)) (g_cols (g t)) = true) as ->.
        { apply forallb_forall. intros x Hx. apply (Hcol x). exact Hx. }
        destruct (Hfr t Hin Hne) as (_ & Hnl & Hlen).
        assert (mapO (fun r => mapO (fun xv => read_data_cell date_of float_of f t (fst xv) (snd xv)) (combine (g_cols (g t)) r))
                  (map (fun r => map (db_cell dt r) (g_cols (g t))) rows) = Ret (g_rows (g t))) as Hread.
        { apply mapO_Forall2. pose proof (Hwf0 _ _ (Htab _ _ Hin')) as Hnc. fold dt in Hnc.
          assert (forall r x v, In r (g_rows (g t)) -> In (x, v) (combine (g_cols (g t)) r) -> forall s, store "INT" v = Some s -> read_data_cell date_of float_of f t x s = Ret v) as Hcell.
          { intros r x v Hr Hx. eapply Hg; eauto. }
          clear Er Hne P G. revert Hlen Hcell. induction R as [| r s a rows A _ IH]; intros Hlen Hcell; simpl; constructor.
          - assert (forall x v, In (x, v) (combine (g_cols (g t)) r) -> read_data_cell date_of float_of f t x (db_cell dt s x) = Ret v) as Hone.
            { intros x v Hx. apply (Hcell r x v); simpl; auto.
              destruct (row_as_cell store (sql_cell date_of f' t ts) ts dt r s x v Hnc Hnl A Hx) as (c & u & C1 & C2 & C3 & C4).
              - apply Hcol. eapply in_combine_l; eauto.
              - rewrite (free_sql_cell f' t ts x v Hf) in C3. injection C3 as <-.
                destruct (free_cols f' t ts c Hf Hin' C1) as (_ & [[[] _] | [_ Et]]). rewrite Et in C4. exact C4. }
            apply mapO_Forall2. specialize (Hlen r (or_introl eq_refl)). clear - Hone Hlen. clearbody dt. clear ts. revert r Hlen Hone.
            induction (g_cols (g t)) as [| x cols IH]; intros [| v r] L Hone; try discriminate; simpl; constructor.
            + apply Hone. simpl. auto.
            + apply IH; auto. intros. apply Hone. simpl. auto.
          - apply IH; intros; [apply Hlen | eapply Hcell]; simpl; eauto. }
        assert (Permutation (map (fun r => map (db_cell dt r) (g_cols (g t))) rows3) (map (fun r => map (db_cell dt r) (g_cols (g t))) rows)) as P'.
        { apply Permutation_map. now symmetry. }
        destruct (mapO_perm _ _ _ _ P' Hread) as (rs & Hrs & Q).
        change (db_select (set_rows dt rows3) (g_cols (g t))) with (map (fun r => map (db_cell dt r) (g_cols (g t))) rows3).
        rewrite Hrs. cbn [bindO]. eexists. split; [reflexivity |]. rewrite <- Er. destruct rs as [| r1 rs1].
        + apply Permutation_nil in Q. contradiction.
        + unfold frame_from. rewrite Er. cbn [g_cols g_rows]. rewrite <- Er. auto. }
    assert (exists l, mapO rd (generic_tables f) = Ret l /\ map fst l = generic_tables f /\
      forall t fr, In (t, fr) l -> g_cols fr = g_cols (frame_from (g_cols (g t)) (g_rows (g t))) /\ Permutation (g_rows fr) (g_rows (g t))) as (l & El & Efst & Hl).
    { clear - Hrd. induction (generic_tables f) as [| t l IH].
      - exists []. split; auto. split; auto. intros ? ? [].
      - destruct IH as (l' & A & B & C). { intros; apply Hrd; simpl; auto. }
        destruct (Hrd t (or_introl eq_refl)) as (fr & E & F). exists ((t, fr) :: l'). cbn [mapO]. rewrite E, A. split; auto. split; [simpl; now rewrite B |].
        intros t' fr' [H | H]; [injection H as <- <-; auto | auto]. }
    exists e, l. unfold gen_sql_read, sql_read_file. rewrite Ee. cbn [bindO]. fold rd. rewrite El. auto.
  Qed.
End Sql.
