(** * Database files: new files, refusals, writing to Access. *)
From Coq Require Import ZArith Bool List String Ascii Arith Lia Permutation.
From Verif Require Import PyVal PyValFacts PyDict PyDictFacts PyStr ListFacts TypeDict Data FindTypes FindTypesFacts FK Graph GraphFacts
  Obj ObjFacts ObjMore Factory FactoryFacts InfIO InfIOFacts Params Names NamesFacts Utils UtilsMore Ampl Json ObjRows JsonFacts TripFacts Sql SqlFacts
  Csv CsvMore Pg PgFacts PgWrite PgTrip FileDb FileDbFacts FileDbTrip.
Import ListNotations.
Local Open Scope string_scope.
Local Open Scope list_scope.

(** ** New files *)

Lemma create_ok : forall l db, NoDup (map lower (map fst (db ++ l))) ->
  (forall tp, In tp l -> NoDup (map (fun c => lower (dc_name c)) (dt_cols (snd tp)))) -> create_tables l db = (true, db ++ l).
Proof.
  induction l as [| tp l IH]; intros db Hn Hc; cbn [create_tables]; [now rewrite app_nil_r |].
  assert (find_table db (fst tp) = None) as ->.
  { apply dget_None. intros k dt Hk. apply same_neq. intros E. rewrite !map_app in Hn. eapply NoDup_app_disj in Hn; [apply Hn | |].
    - apply in_map. apply (in_map fst) in Hk. exact Hk.
    - cbn [fst]. rewrite E. simpl. auto. }
  assert (distinct_b (map (fun c => lower (dc_name c)) (dt_cols (snd tp))) = true) as ->.
  { apply distinct_b_iff. apply Hc. simpl. auto. }
  rewrite IH; [now rewrite <- app_assoc | now rewrite <- app_assoc | intros; apply Hc; simpl; auto].
Qed.

(** The tables of a schema, in some order, made by [mk]. *)
Definition made (mk : string -> tschema -> dbtable) (f : factory) (order : list string) : filedb :=
  map (fun t => (t, mk t (ts_of (plain_schema f) t))) order.

Lemma made_names : forall mk f order, map fst (made mk f order) = order.
Proof. intros. unfold made. rewrite map_map. cbn [fst]. apply map_id. Qed.

Lemma made_spec : forall mk f order, decl_ok (f_decl f) = true -> Permutation order (map fst (plain_schema f)) ->
  (forall t ts, map dc_name (dt_cols (mk t ts)) = tfields ts) ->
  (forall db0, db0 = [] -> create_tables (made mk f order) db0 = (true, made mk f order)) /\
  all_found f (made mk f order) /\ file_wf (made mk f order) /\
  (forall t ts, In (t, ts) (plain_schema f) -> find_table (made mk f order) t = Some (mk t ts)) /\
  forall n, (forall t, In t (map fst (plain_schema f)) -> lower t <> lower n) -> find_table (made mk f order) n = None.
Proof.
  intros mk f order Hd P Hc. pose proof (plain_wf f Hd) as Hwf. pose proof (plain_legal f Hd) as L.
  assert (NoDup (map lower order)) as Hn. { eapply Permutation_NoDup; [| apply L]. apply Permutation_map. now symmetry. }
  assert (forall t ts, In (t, ts) (plain_schema f) -> NoDup (map (fun c => lower (dc_name c)) (dt_cols (mk t ts)))) as Hcols.
  { intros t ts Hin. rewrite <- (map_map dc_name lower), Hc. now apply (plain_fields f t ts Hd Hin). }
  assert (forall t ts, In (t, ts) (plain_schema f) -> find_table (made mk f order) t = Some (mk t ts)) as Hfind.
  { intros t ts Hin. assert (In t order) as Ht. { eapply Permutation_in; [symmetry; exact P |]. now apply (in_map fst) in Hin. }
    rewrite <- (ts_of_In _ _ _ Hwf Hin). clear - Ht Hn. unfold made, find_table. induction order as [| u order IH]; [contradiction |].
    cbn [map] in *. apply NoDup_cons_iff in Hn as [N1 N2]. cbn [dget]. destruct Ht as [-> | Ht]; [now rewrite same_refl |].
    assert (same_name u t = false) as ->. { apply same_neq. intros E. apply N1. rewrite E. now apply in_map. } auto. }
  split; [| split; [| split; [| split]]]; auto.
  - intros db0 ->. rewrite create_ok; auto.
    + rewrite app_nil_l, made_names. exact Hn.
    + intros [t dt] Hin. unfold made in Hin. apply in_map_iff in Hin as (u & E & Hu). injection E as <- <-. cbn [snd].
      apply (Permutation_in _ P) in Hu. apply in_map_iff in Hu as ([u' ts] & <- & Hin). cbn [fst]. rewrite (ts_of_In _ _ _ Hwf Hin). eauto.
  - intros t ts Hin. split.
    + destruct (get_db_table_own false (map fst (plain_schema f)) (map fst (made mk f order)) [] t L) as (n & G & E).
      * now apply (in_map fst) in Hin.
      * intros n. rewrite made_names, app_nil_r. unfold out_name, use_pretty. cbn [andb]. rewrite map_id.
        split; intros H; [eapply Permutation_in; [exact P | auto] | eapply Permutation_in; [symmetry; exact P | auto]].
      * intros ? ? [].
      * rewrite G. f_equal. f_equal. unfold out_name, use_pretty in E. cbn [andb] in E.
        apply (variant_lower_inj t); auto; [| apply variant_refl].
        unfold get_db_table in G. destruct (filter _ _) as [| m [| m' l']] eqn:Ef; try discriminate. injection G as ->.
        apply replacements_iff. apply (filter_In (try_name (map fst (made mk f order)))). rewrite Ef. simpl. auto.
    + exists (mk t ts). split; auto. intros x Hx. unfold has_col. apply existsb_exists. rewrite <- (Hc t ts) in Hx. apply in_map_iff in Hx as (c & <- & Hx).
      exists c. split; auto. apply same_refl.
  - intros n dt F. unfold find_table in F. apply dget_In in F as (t & E & F). unfold made in F. apply in_map_iff in F as (u & E' & Hu). injection E' as -> <-.
    apply (Permutation_in _ P) in Hu. apply in_map_iff in Hu as ([u' ts] & <- & Hin). cbn [fst]. rewrite (ts_of_In _ _ _ Hwf Hin). eauto.
  - intros n Hno. apply dget_None. intros t dt Ht. apply same_neq. apply Hno. eapply Permutation_in; [exact P |]. rewrite <- (made_names mk f order).
    now apply (in_map fst) in Ht.
Qed.

Section Write.
  Variable store : string -> value -> option value.
  Variable key_free : list (list value) -> list value -> bool.
  Variable date_of : value -> option Z.
  Variable sql_default : value -> value.
  Variable f : factory.

  Let sql_write := sql_write_file store key_free date_of sql_default f.

  (** ** SQLite *)

  Lemma sql_failed : forall allow d db p, sql_write allow d (Some db) = (false, p) -> p = Some db.
  Proof.
    intros allow d db p H. unfold sql_write, sql_write_file in H. destruct (check_fields f db); [| congruence].
    destruct (prepare allow _ _ db); [| congruence]. destruct (sql_inserts date_of f d); [| congruence].
    destruct (insert_list store key_free _ _); congruence.
  Qed.

  Lemma sql_refuses : forall d db t ts dt, decl_ok (f_decl f) = true -> In (t, ts) (plain_schema f) ->
    find_table db t = Some dt -> dt_rows dt <> [] -> sql_write false d (Some db) = (false, Some db).
  Proof.
    intros d db t ts dt Hd Hin F Hr. destruct (sql_write false d (Some db)) as [[|] p] eqn:E; [exfalso | now apply sql_failed in E as ->].
    unfold sql_write, sql_write_file in E. destruct (check_fields f db) as [names |]; [| discriminate].
    destruct (prepare false names _ db) as [db1 |] eqn:P; [| discriminate]. apply prepare_spec in P as (_ & P & _); [| apply (plain_legal f Hd)].
    destruct (P eq_refl) as [_ P2]. apply Hr. apply (is_empty_spec db t dt); auto. apply P2. now apply (in_map fst) in Hin.
  Qed.

  Lemma sql_cols : forall t ts, map dc_name (dt_cols (sql_table sql_default f t ts)) = tfields ts.
  Proof. intros t ts. unfold sql_table. cbn [dt_cols]. rewrite map_app, !map_map. cbn [dc_name]. now rewrite !map_id. Qed.

  (** The file made by [write_db_schema]. *)
  Theorem sql_new_file : decl_ok (f_decl f) = true -> acyclic (f_fks f) -> fks_within (f_fks f) (map fst (plain_schema f)) ->
    exists db, sql_write_schema sql_default f [] = (true, db) /\ all_found f db /\ file_wf db /\
      (forall t ts, In (t, ts) (plain_schema f) -> find_table db t = Some (sql_table sql_default f t ts)) /\
      (forall n, (forall t, In t (map fst (plain_schema f)) -> lower t <> lower n) -> find_table db n = None) /\
      forall allow d, sql_write allow d None = sql_write allow d (Some db).
  Proof.
    intros Hd Ha Hw.
    destruct (sq_order_acyclic (f_fks f) (map fst (plain_schema f)) (S (List.length (f_decl f)))) as (order & E & P & _); auto.
    { apply (plain_wf f Hd). }
    { rewrite map_length. apply -> Nat.lt_succ_r. unfold plain_schema. clear. induction (f_decl f) as [| [t [| ts]] l IH]; simpl in *; lia. }
    destruct (made_spec (sql_table sql_default f) f order Hd P sql_cols) as (A & B & C & D & F).
    exists (made (sql_table sql_default f) f order).
    assert (sql_write_schema sql_default f [] = (true, made (sql_table sql_default f) f order)) as S.
    { unfold sql_write_schema. rewrite E. fold (made (sql_table sql_default f) f order). now apply A. }
    split; auto. split; auto. split; auto. split; auto. split; auto.
    intros allow d. unfold sql_write, sql_write_file. rewrite S. reflexivity.
  Qed.

  (** ** One row *)

  (** Keys come one after the other, each free when it comes. *)
  Definition keys_ok (dt : dbtable) (rows : list (list value)) : Prop := forall a s b, rows = a ++ s :: b ->
    dt_key dt = [] \/ key_free (map (row_key dt) a) (row_key dt s) = true.

  Lemma given_exists : forall (W : string -> value -> outcome value) ts dt r s, List.length r = List.length (tfields ts) ->
    NoDup (map lower (tfields ts)) -> NoDup (map (fun c => lower (dc_name c)) (dt_cols dt)) ->
    (forall x, In x (tfields ts) -> has_col dt x = true) -> row_as store W ts dt r s ->
    exists given, Forall2 (fun fx g => fst g = fst fx /\ W (fst fx) (snd fx) = Ret (snd g)) (combine (tfields ts) r) given.
  Proof.
    intros W ts dt r s L Hf Hn Hc Hr.
    assert (forall x v, In (x, v) (combine (tfields ts) r) -> exists w, W x v = Ret w) as H.
    { intros x v Hx. destruct (row_as_cell store W ts dt r s x v Hn Hf Hr Hx) as (c & w & _ & _ & E & _); eauto.
      apply Hc. eapply in_combine_l; eauto. }
    clear - H. induction (combine (tfields ts) r) as [| [x v] l IH]; [exists []; constructor |].
    destruct IH as (g & G). { intros. apply H. simpl. auto. } destruct (H x v) as (w & E); [simpl; auto |]. exists ((x, w) :: g). constructor; auto.
  Qed.

  Lemma given_names : forall (W : string -> value -> outcome value) (fs : list string) (r : list value) given, List.length r = List.length fs ->
    Forall2 (fun fx g => fst g = fst fx /\ W (fst fx) (snd fx) = Ret (snd g)) (combine fs r) given -> map fst given = fs.
  Proof.
    intros W fs r given L F. rewrite <- (map_fst_combine fs r) by auto. clear L. induction F as [| p g l m [A _] _ IH]; simpl; auto. now rewrite A, IH.
  Qed.

  Lemma new_row_as : forall (W : string -> value -> outcome value) ts dt r s given, List.length r = List.length (tfields ts) ->
    NoDup (map lower (tfields ts)) -> row_as store W ts dt r s ->
    Forall2 (fun fx g => fst g = fst fx /\ W (fst fx) (snd fx) = Ret (snd g)) (combine (tfields ts) r) given ->
    new_cells store (dt_cols dt) given = Some s.
  Proof.
    intros W ts dt r s given L Hf [Ls Hr] F. apply new_cells_spec. pose proof (given_names W _ _ _ L F) as Hg.
    revert s Ls Hr. induction (dt_cols dt) as [| c cols IH]; intros [| u s] Ls Hr; try discriminate; constructor.
    - destruct (Hr c u (or_introl eq_refl)) as [(x & v & w & Hx & E & Hw & Hs) | [Hno ->]].
      + unfold cell_for. destruct (Forall2_In_l _ _ _ _ F Hx) as ([y w'] & Hy & E1 & E2). cbn [fst snd] in *. subst y. rewrite Hw in E2. injection E2 as <-.
        assert (dget same_name given (dc_name c) = Some w) as ->; auto. clear - Hy E Hg Hf. rewrite <- Hg in Hf. clear Hg.
        induction given as [| [y w'] g IH]; [contradiction |]. cbn [map fst] in Hf. apply NoDup_cons_iff in Hf as [N1 N2]. cbn [dget].
        destruct Hy as [Hy | Hy].
        * injection Hy as -> ->. assert (same_name x (dc_name c) = true) as -> by (now apply same_iff). reflexivity.
        * assert (same_name y (dc_name c) = false) as ->; auto. apply same_neq. intros E'. apply N1. rewrite E', <- E. apply in_map. now apply (in_map fst) in Hy.
      + unfold cell_for. assert (dget same_name given (dc_name c) = None) as ->; auto. apply dget_None. intros y w Hy. apply same_neq. apply Hno.
        rewrite <- Hg. now apply (in_map fst) in Hy.
    - apply IH; [now injection Ls | intros c' u' H'; apply Hr; simpl; auto].
  Qed.

  (** An INSERT that succeeds. *)
  Lemma insert_ok : forall db t dt0 dt rows given s, find_table db t = Some (set_rows dt rows) -> dt0 = dt ->
    NoDup (map lower (map fst given)) -> (forall x, In x (map fst given) -> has_col dt x = true) ->
    new_cells store (dt_cols dt) given = Some s -> (dt_key dt = [] \/ key_free (map (row_key dt) rows) (row_key dt s) = true) ->
    exists db', db_insert store key_free db t given = Some db' /\
      forall n, find_table db' n = if same_name t n then Some (set_rows dt (rows ++ [s])) else find_table db n.
  Proof.
    intros db t dt0 dt rows given s F _ Hn Hc Hs Hk. unfold db_insert. rewrite F.
    assert (distinct_b (map (fun xv : string * value => lower (fst xv)) given) = true) as ->. { apply distinct_b_iff. now rewrite <- (map_map fst lower). }
    assert (forallb (fun xv : string * value => has_col (set_rows dt rows) (fst xv)) given = true) as ->.
    { apply forallb_forall. intros xv Hx. apply Hc. now apply in_map. }
    cbn [andb]. change (dt_cols (set_rows dt rows)) with (dt_cols dt). rewrite Hs.
    change (dt_key (set_rows dt rows)) with (dt_key dt). change (dt_rows (set_rows dt rows)) with rows.
    assert (Nat.eqb (List.length (dt_key dt)) 0 || key_free (map (row_key (set_rows dt rows)) rows) (row_key (set_rows dt rows) s) = true) as ->.
    { destruct Hk as [-> | Hk]; [reflexivity |]. apply orb_true_iff. right. exact Hk. }
    eexists. split; [reflexivity |]. intros n. apply find_dset.
  Qed.

  (** ** SQLite: calls that return *)

  Lemma insert_app : forall l m db, insert_list store key_free (l ++ m) db =
    match insert_list store key_free l db with Some db' => insert_list store key_free m db' | None => None end.
  Proof.
    induction l as [| tg l IH]; intros m db; auto. cbn [app insert_list]. destruct (db_insert store key_free db (fst tg) (snd tg)); auto.
  Qed.

  Lemma insert_table : forall t ts dt, NoDup (map lower (tfields ts)) -> (forall x, In x (tfields ts) -> has_col dt x = true) ->
    forall W full new rows db gs, (forall r, In r full -> List.length r = List.length (tfields ts)) ->
    find_table db t = Some (set_rows dt rows) ->
    Forall2 (row_as store W ts dt) full new -> Forall2 (fun r g => Forall2 (fun fx v => W (fst fx) (snd fx) = Ret v) (combine (tfields ts) r) g) full gs ->
    keys_ok dt (rows ++ new) ->
    exists db', insert_list store key_free (map (fun g => (t, combine (tfields ts) g)) gs) db = Some db' /\
      forall n, find_table db' n = if same_name t n then Some (set_rows dt (rows ++ new)) else find_table db n.
  Proof.
    intros t ts dt Hf Hc W. induction full as [| r full IH]; intros new rows db gs L F R G K; inversion R as [| ? s ? new' R1 R2]; inversion G as [| ? g ? gs' G1 G2]; subst.
    - exists db. split; auto. intros n. rewrite app_nil_r. destruct (same_name t n) eqn:S; auto. now rewrite <- (find_cong db _ _ S).
    - assert (List.length r = List.length (tfields ts)) as Lr by (apply L; simpl; auto).
      pose proof (given_pairs W _ _ _ Lr G1) as Gp. pose proof (given_names W _ _ _ Lr Gp) as Gn.
      destruct (insert_ok db t dt dt rows (combine (tfields ts) g) s F eq_refl) as (db1 & E & N).
      + now rewrite Gn.
      + intros x. rewrite Gn. auto.
      + eapply new_row_as; eauto.
      + apply (K rows s new'). reflexivity.
      + destruct (IH new' (rows ++ [s]) db1 gs') as (db2 & E2 & N2); auto.
        * intros; apply L; simpl; auto.
        * rewrite N, same_refl. reflexivity.
        * rewrite <- app_assoc. exact K.
        * exists db2. cbn [map insert_list fst snd]. rewrite E. split; auto. intros n. rewrite N2, N. destruct (same_name t n); auto. now rewrite <- app_assoc.
  Qed.

  Theorem sql_succeeds : forall allow d db new, decl_ok (f_decl f) = true -> file_wf db -> obj_ok (plain_schema f) d -> all_found f db ->
    (allow = false -> forall t ts dt, In (t, ts) (plain_schema f) -> find_table db t = Some dt -> dt_rows dt = []) ->
    (forall t ts dt, In (t, ts) (plain_schema f) -> find_table db t = Some dt ->
       Forall2 (row_as store (sql_cell date_of f t ts) ts dt) (full_rows (d t)) (new t) /\ keys_ok dt (new t)) ->
    exists db', sql_write allow d (Some db) = (true, Some db').
  Proof.
    intros allow d db new Hd Hwfd Hok Hfound Hempty Hrows. pose proof (plain_wf f Hd) as Hwf. unfold sql_write, sql_write_file.
    destruct (check_found f db Hd Hfound) as (names & -> & Hnames).
    assert (forall tables db0, (forall t, In t tables -> dget String.eqb names t = Some t) ->
              (allow = false -> forall t, In t tables -> is_empty db0 t = true) -> exists db1, prepare allow names tables db0 = Some db1) as Hprep.
    { induction tables as [| t tables IH]; intros db0 H1 H2; [eexists; reflexivity |]. cbn [prepare]. rewrite H1 by (simpl; auto). rewrite String.eqb_refl. cbn [andb].
      assert (allow || is_empty db0 t = true) as ->. { destruct allow; auto. apply H2; simpl; auto. }
      apply IH; [intros; apply H1; simpl; auto |]. intros -> u Hu. apply H2; simpl; auto. }
    destruct (Hprep (map fst (plain_schema f)) db) as (db1 & E1); auto.
    { intros -> t Ht. apply in_map_iff in Ht as ([t' ts] & <- & Hin). cbn [fst]. destruct (Hfound _ _ Hin) as (_ & dt & F & _). unfold is_empty. rewrite F.
      rewrite (Hempty eq_refl t' ts dt); auto. }
    rewrite E1. apply prepare_spec in E1 as (_ & P2 & P3); [| apply (plain_legal f Hd)].
    assert (forall t ts dt, In (t, ts) (plain_schema f) -> find_table db t = Some dt -> find_table db1 t = Some (set_rows dt [])) as Hclear.
    { intros t ts dt Hin F. rewrite P3. destruct allow; cbn [andb].
      - assert (existsb (fun u => same_name u t) (map fst (plain_schema f)) = true) as ->.
        { apply existsb_exists. exists t. split; [now apply (in_map fst) in Hin | apply same_refl]. }
        now rewrite F.
      - rewrite F. f_equal. rewrite <- (Hempty eq_refl t ts dt) by auto. symmetry. apply set_own. }
    clear P2 P3 Hprep.
    assert (forall t ts, In (t, ts) (plain_schema f) -> exists gs, out_rows date_of f t ts (d t) = Ret gs) as Hout.
    { intros t ts Hin. destruct (Hfound _ _ Hin) as (_ & dt & F & Hc). destruct (Hrows _ _ _ Hin F) as [R _].
      pose proof (Hok _ _ Hin) as Ht. pose proof (full_length ts (d t)) as L. specialize (fun r => L r Ht). unfold table_ok in Ht. unfold out_rows. unfold sql_cell in R.
      destruct (d t) as [l | l] eqn:Ed; [| eauto]. destruct (tpk ts) as [| p pk] eqn:Ep; [contradiction |].
      apply mapO_total. intros r Hr. apply mapO_total. intros [x v] Hx. cbn [fst snd]. destruct (Forall2_In_l _ _ _ _ R Hr) as (s & _ & Hrow).
      destruct (row_as_cell store (fun x v => write_data_cell date_of f t x v) ts dt r s x v (Hwfd _ _ F) (proj2 (plain_fields f t ts Hd Hin)) Hrow Hx) as (c & w & _ & _ & E & _); eauto.
      apply Hc. eapply in_combine_l; eauto. }
    assert (forall sch db1, NoDup (map lower (map fst sch)) -> (forall t ts, In (t, ts) sch -> In (t, ts) (plain_schema f)) ->
              (forall t ts dt, In (t, ts) sch -> find_table db t = Some dt -> find_table db1 t = Some (set_rows dt [])) ->
              exists parts db2, mapO (fun tts => bindO (out_rows date_of f (fst tts) (snd tts) (d (fst tts)))
                              (fun rows => Ret (map (fun r => (fst tts, combine (tfields (snd tts)) r)) rows))) sch = Ret parts /\
                insert_list store key_free (List.concat parts) db1 = Some db2) as Hins.
    { clear E1 || idtac. clear Hclear db1. induction sch as [| [t ts] sch IH]; intros db1 Hn Hsub Hcl.
      - exists [], db1. split; reflexivity.
      - cbn [map fst] in Hn. apply NoDup_cons_iff in Hn as [N1 N2].
        assert (In (t, ts) (plain_schema f)) as Hin by (apply Hsub; simpl; auto).
        destruct (Hout _ _ Hin) as (gs & Eg). destruct (Hfound _ _ Hin) as (_ & dt & F & Hc). destruct (Hrows _ _ _ Hin F) as [R K].
        assert (forall r, In r (full_rows (d t)) -> List.length r = List.length (tfields ts)) as Lr by (intros r; apply full_length; now apply Hok).
        destruct (insert_table t ts dt (proj2 (plain_fields f t ts Hd Hin)) Hc (sql_cell date_of f t ts) (full_rows (d t)) (new t) [] db1 gs) as (db2 & E2 & G2); auto.
        { apply Hcl with ts; simpl; auto. }
        { apply out_rows_spec; auto. }
        destruct (IH db2) as (parts & db3 & E3 & G3); auto.
        { intros; apply Hsub; simpl; auto. }
        { intros u us du Hu Fu. rewrite G2.
          assert (same_name t u = false) as ->. { apply same_neq. intros E. apply N1. rewrite E. apply in_map. now apply (in_map fst) in Hu. }
          apply Hcl with us; simpl; auto. }
        exists (map (fun r => (t, combine (tfields ts) r)) gs :: parts), db3. cbn [mapO fst snd]. rewrite Eg. cbn [bindO]. rewrite E3. split; auto.
        cbn [List.concat]. rewrite insert_app, E2. exact G3. }
    destruct (Hins (plain_schema f) db1) as (parts & db2 & E2 & G2); auto. { apply (plain_legal f Hd). }
    unfold sql_inserts. rewrite E2. cbn [bindO]. rewrite G2. eauto.
  Qed.
End Write.
