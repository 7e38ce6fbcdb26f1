(** * Database files: what is written, and reading it back. *)
From Coq Require Import ZArith Bool List String Ascii Arith Lia Permutation.
From Verif Require Import PyVal PyValFacts PyDict PyDictFacts PyStr ListFacts TypeDict Data FindTypes FindTypesFacts FK Graph GraphFacts
  Obj ObjFacts ObjMore Factory FactoryFacts InfIO InfIOFacts Params Names NamesFacts Utils UtilsMore Ampl Json ObjRows JsonFacts TripFacts Sql SqlFacts
  Csv CsvMore Pg PgFacts PgWrite PgTrip FileDb FileDbFacts.
Import ListNotations.
Local Open Scope string_scope.
Local Open Scope list_scope.

(** Columns of a table have names that differ in more than case. *)
Definition file_wf (db : filedb) : Prop := forall n dt, find_table db n = Some dt -> NoDup (map (fun c => lower (dc_name c)) (dt_cols dt)).

(** The same tables, each with its rows in any order. *)
Definition same_file (db db' : filedb) : Prop := forall n,
  match find_table db n with
  | None => find_table db' n = None
  | Some dt => exists rows, find_table db' n = Some (set_rows dt rows) /\ Permutation (dt_rows dt) rows
  end.

Lemma same_file_tables : forall db db', same_file db db' -> same_tables db db'.
Proof. intros db db' H n. specialize (H n). destruct (find_table db n); auto. destruct H as (r & H & _). eauto. Qed.

Section Engine.
  Variable store : string -> value -> option value.
  Variable key_free : list (list value) -> list value -> bool.
  Variable date_of : value -> option Z.
  Variable float_of : value -> option value.
  Variable f : factory.

  (** [W t ts x v]: the value given to the file for the cell [v]. *)
  Definition writer := string -> tschema -> string -> value -> outcome value.

  (** The tables of the schema have the rows of the object, and only those; the
      other tables are as before. *)
  Definition holds_object (W : writer) (d : obj) (db db' : filedb) : Prop :=
    (forall t ts, In (t, ts) (plain_schema f) -> exists dt rows, find_table db t = Some dt /\
       find_table db' t = Some (set_rows dt rows) /\ Forall2 (row_as store (W t ts) ts dt) (full_rows (d t)) rows) /\
    forall n, (forall t, In t (map fst (plain_schema f)) -> lower t <> lower n) -> find_table db' n = find_table db n.

  (** Every table of the schema is in the file under its name, and has the fields. *)
  Definition all_found (db : filedb) : Prop := forall t ts, In (t, ts) (plain_schema f) ->
    get_db_table (map fst db) t = Ret (Some t) /\ exists dt, find_table db t = Some dt /\ forall x, In x (tfields ts) -> has_col dt x = true.

  Lemma holds_tables : forall W d db db', holds_object W d db db' -> same_tables db db'.
  Proof.
    intros W d db db' [A B] n. destruct (existsb (fun t => same_name t n) (map fst (plain_schema f))) eqn:E.
    - apply existsb_exists in E as (t & Ht & E). apply in_map_iff in Ht as ([t' ts] & <- & Hin). cbn [fst] in E.
      destruct (A _ _ Hin) as (dt & rows & F & G & _). rewrite (find_cong db _ _ E) in F. rewrite (find_cong db' _ _ E) in G. rewrite F. eauto.
    - rewrite B.
      + destruct (find_table db n) as [dt |]; auto. exists (dt_rows dt). now rewrite set_own.
      + intros t Ht Heq. apply not_true_iff_false in E. apply E. apply existsb_exists. exists t. split; auto. now apply same_iff.
  Qed.

  Lemma prepare_spec : forall allow names tables db db1, NoDup (map lower tables) -> prepare allow names tables db = Some db1 ->
    (forall t, In t tables -> dget String.eqb names t = Some t) /\
    (allow = false -> db1 = db /\ forall t, In t tables -> is_empty db t = true) /\
    forall n, find_table db1 n = if allow && existsb (fun t => same_name t n) tables then option_map (fun dt => set_rows dt []) (find_table db n) else find_table db n.
  Proof.
    intros allow names. induction tables as [| t tables IH]; intros db db1 Hn H; cbn [prepare] in H.
    - injection H as <-. split; [intros ? [] |]. split; [split; [auto | intros ? []] |]. intros n. simpl. now rewrite andb_false_r.
    - cbn [map] in Hn. apply NoDup_cons_iff in Hn as [N1 N2].
      destruct (dget String.eqb names t) as [n |] eqn:D; [| discriminate]. destruct (String.eqb_spec n t) as [-> |]; [| discriminate]. cbn [andb] in H.
      destruct (allow || is_empty db t) eqn:E; [| discriminate]. apply IH in H as (A & B & C); auto. split; [| split].
      + intros u [<- | Hu]; auto.
      + intros ->. cbn [orb] in E. destruct (B eq_refl) as [-> B2]. split; auto. intros u [<- | Hu]; auto.
      + intros n. rewrite C. cbn [existsb]. destruct allow; auto. cbn [andb]. rewrite clear_spec. destruct (same_name t n) eqn:S; auto.
        cbn [orb]. destruct (find_table db n) as [dt |]; cbn [option_map]; destruct (existsb (fun u => same_name u n) tables); auto.
  Qed.

  Lemma is_empty_spec : forall db t dt, is_empty db t = true -> find_table db t = Some dt -> dt_rows dt = [].
  Proof. intros db t dt H F. unfold is_empty in H. rewrite F in H. apply Nat.eqb_eq in H. now destruct (dt_rows dt). Qed.

  (** ** SQLite *)

  (** sqlitetd.py 283-310: only tables with a key are converted. *)
  Definition sql_cell : writer := fun t ts x v => match tpk ts with [] => Ret v | _ => write_data_cell date_of f t x v end.

  Lemma out_rows_spec : forall t ts tb rows, table_ok ts tb -> out_rows date_of f t ts tb = Ret rows ->
    Forall2 (fun r r' => Forall2 (fun fx v => sql_cell t ts (fst fx) (snd fx) = Ret v) (combine (tfields ts) r) r') (full_rows tb) rows.
  Proof.
    intros t ts tb rows Hok H. unfold sql_cell. unfold table_ok in Hok. destruct (tpk ts) as [| p pk] eqn:Ep; destruct tb as [l | l]; try contradiction; cbn [out_rows] in H.
    - injection H as <-. cbn [full_rows].
      assert (forall r, In r l -> List.length r = List.length (tfields ts)) as L. { intros r Hr. unfold tfields. rewrite Ep. auto. } clear Hok.
      induction l as [| r l IH]; constructor; [| apply IH; intros; apply L; simpl; auto].
      specialize (L r (or_introl eq_refl)). clear IH. revert r L. induction (tfields ts) as [| x fs IH]; intros [| v r] L; try discriminate; simpl; constructor; auto.
    - apply mapO_Forall2 in H. eapply Forall2_imp; [| exact H]. cbn beta. intros r r' _ Hr. now apply mapO_Forall2 in Hr.
  Qed.

  Lemma given_pairs : forall (W : string -> value -> outcome value) (fs : list string) (r r' : list value), List.length r = List.length fs ->
    Forall2 (fun fx v => W (fst fx) (snd fx) = Ret v) (combine fs r) r' ->
    Forall2 (fun fx g => fst g = fst fx /\ W (fst fx) (snd fx) = Ret (snd g)) (combine fs r) (combine fs r').
  Proof.
    intros W fs. induction fs as [| x fs IH]; intros [| v r] r' L F; try discriminate; simpl in *.
    - constructor.
    - inversion F as [| ? w ? r2 A B]; subst. simpl. constructor; auto.
  Qed.

  Lemma inserts_spec : forall d l, decl_ok (f_decl f) = true -> obj_ok (plain_schema f) d -> sql_inserts date_of f d = Ret l ->
    (forall t ts, In (t, ts) (plain_schema f) -> exists rows, map snd (filter (fun tg => same_name (fst tg) t) l) = map (combine (tfields ts)) rows /\
       Forall2 (fun r r' => Forall2 (fun fx v => sql_cell t ts (fst fx) (snd fx) = Ret v) (combine (tfields ts) r) r') (full_rows (d t)) rows) /\
    forall t g, In (t, g) l -> In t (map fst (plain_schema f)).
  Proof.
    intros d l Hd Hok H. unfold sql_inserts in H. apply bindO_ret in H as (parts & H & E). injection E as <-. apply mapO_Forall2 in H.
    pose proof (proj1 (plain_legal f Hd)) as Hn. unfold obj_ok in Hok. revert H Hn Hok. generalize (plain_schema f) as sch.
    intros sch H. induction H as [| [t ts] p sch parts H _ IH]; intros Hn Hok.
    - split; [intros ? ? [] | intros ? ? []].
    - cbn [map fst] in Hn. apply NoDup_cons_iff in Hn as [N1 N2]. destruct IH as [A B]; auto. { intros; apply Hok; simpl; auto. }
      cbn [fst snd] in H. apply bindO_ret in H as (rows & H & E). injection E as <-. cbn [List.concat]. split.
      + intros u us [E | Hu].
        * injection E as <- <-. exists rows. split; [| apply out_rows_spec; auto; apply Hok; simpl; auto].
          rewrite filter_app, map_app.
          assert (filter (fun tg : string * list (string * value) => same_name (fst tg) t) (List.concat parts) = []) as ->.
          { apply filter_none'. intros [u g] Hu. cbn [fst]. apply same_neq. intros E. apply N1. rewrite <- E. apply in_map. eapply B; eauto. }
          rewrite app_nil_r. clear. induction rows as [| r rows IH]; simpl; auto. rewrite same_refl. simpl. now rewrite IH.
        * destruct (A _ _ Hu) as (rows' & E & F). exists rows'. split; auto. rewrite filter_app, map_app, E.
          assert (filter (fun tg : string * list (string * value) => same_name (fst tg) u) (map (fun r => (t, combine (tfields ts) r)) rows) = []) as ->; auto.
          apply filter_none'. intros [v g] Hv. apply in_map_iff in Hv as (r & E' & _). injection E' as <- <-. cbn [fst].
          apply same_neq. intros E'. apply N1. rewrite E'. apply (in_map fst) in Hu. now apply (in_map lower) in Hu.
      + intros u g Hu. apply in_app_iff in Hu as [Hu | Hu]; [left; apply in_map_iff in Hu as (r & E & _); now injection E as -> _ | right; eauto].
  Qed.

  (** A call that returns. *)
  Theorem sql_written : forall allow d db p, decl_ok (f_decl f) = true -> obj_ok (plain_schema f) d ->
    forall sql_default, sql_write_file store key_free date_of sql_default f allow d (Some db) = (true, p) ->
    exists db', p = Some db' /\ all_found db /\ holds_object sql_cell d db db' /\
      (allow = false -> forall t ts dt, In (t, ts) (plain_schema f) -> find_table db t = Some dt -> dt_rows dt = []).
  Proof.
    intros allow d db p Hd Hok dflt H. unfold sql_write_file in H. destruct (check_fields f db) as [names |] eqn:Ec; [| discriminate].
    destruct (prepare allow names (map fst (plain_schema f)) db) as [db1 |] eqn:Ep; [| discriminate].
    destruct (sql_inserts date_of f d) as [l |] eqn:Ei; [| discriminate]. destruct (insert_list store key_free l db1) as [db2 |] eqn:El; [| discriminate].
    injection H as <-. exists db2. split; auto.
    pose proof (proj1 (plain_legal f Hd)) as Hn. apply prepare_spec in Ep as (P1 & P2 & P3); auto.
    apply inserts_spec in Ei as [I1 I2]; auto. pose proof (insert_list_spec _ _ _ _ _ El) as I3.
    assert (all_found db) as Hf.
    { intros t ts Hin. destruct (check_fields_spec _ _ _ Hd Ec _ _ Hin) as (o & G & D & C).
      rewrite P1 in D by (now apply (in_map fst) in Hin). subst o. split; auto. }
    split; auto.
    assert (forall t ts, In (t, ts) (plain_schema f) -> forall n, same_name t n = true -> forall dt, find_table db n = Some dt -> find_table db1 n = Some (set_rows dt [])) as Hcl.
    { intros t ts Hin n S dt F. rewrite P3. destruct allow; cbn [andb].
      - assert (existsb (fun u => same_name u n) (map fst (plain_schema f)) = true) as ->.
        { apply existsb_exists. exists t. split; auto. now apply (in_map fst) in Hin. }
        rewrite F. reflexivity.
      - destruct (P2 eq_refl) as [_ P4]. pose proof (P4 t) as P5. pose proof F as F0. rewrite <- (find_cong db _ _ S) in F.
        assert (dt_rows dt = []) as <-; [| rewrite set_own; exact F0].
        eapply is_empty_spec; [apply P5; now apply (in_map fst) in Hin | exact F]. }
    split; [split |].
    - intros t ts Hin. destruct (Hf _ _ Hin) as (_ & dt & F & _). destruct (I1 _ _ Hin) as (rows & E & R).
      specialize (I3 t). rewrite (Hcl _ _ Hin t (same_refl t) dt F) in I3. destruct I3 as (rows' & R' & G). cbn [dt_rows dt_cols set_rows app] in R', G.
      exists dt, rows'. split; auto. split; [exact G |].
      rewrite E in R'. clear - R R' Hok Hin.
      assert (forall r, In r (full_rows (d t)) -> List.length r = List.length (tfields ts)) as L by (intros r; apply full_length; now apply Hok).
      revert rows rows' R R' L. generalize (full_rows (d t)). intros a rows rows' R. revert rows'.
      induction R as [| r g a rows A _ IH]; intros rows' R' L; inversion R' as [| ? s ? rows2 N R2]; subst; constructor.
      + eapply row_as_new; [| | exact N]; [apply L; simpl; auto |]. apply given_pairs; auto. apply L; simpl; auto.
      + apply IH; auto. intros; apply L; simpl; auto.
    - intros n Hno. specialize (I3 n). rewrite P3 in I3.
      assert (existsb (fun t => same_name t n) (map fst (plain_schema f)) = false) as Hex.
      { apply not_true_iff_false. intros Hex. apply existsb_exists in Hex as (t & Ht & S). apply same_iff in S. now apply (Hno t). }
      rewrite Hex, andb_false_r in I3.
      assert (filter (fun tg : string * list (string * value) => same_name (fst tg) n) l = []) as Hfl.
      { apply filter_none'. intros [u g] Hu. cbn [fst]. apply same_neq. apply Hno. eapply I2; eauto. }
      rewrite Hfl in I3. destruct (find_table db n) as [dt |]; auto. destruct I3 as (rows & R & ->). inversion R. subst. now rewrite app_nil_r, set_own.
    - intros -> t ts dt Hin F. destruct (P2 eq_refl) as [_ P4]. apply (is_empty_spec db t dt); auto. apply P4. now apply (in_map fst) in Hin.
  Qed.

  (** ** Reading *)

  Variable read : factory -> string -> string -> value -> outcome value.

  (** A cell is written, stored by its column, and read. *)
  Definition file_trip (W : writer) (db : filedb) (t : string) (ts : tschema) (x : string) (v w : value) : Prop :=
    forall dt c, find_table db t = Some dt -> In c (dt_cols dt) -> lower (dc_name c) = lower x ->
    forall u s, W t ts x v = Ret u -> store (dc_type c) u = Some s -> read f t x s = Ret w.

  Lemma table_arg_rows : forall t ts rows rs,
    mapO (fun r => mapO (fun fx => read f t (fst fx) (snd fx)) (combine (tfields ts) r)) rows = Ret rs ->
    table_arg (read f) t ts rows = Ret (rows_in ts rs).
  Proof. intros t ts rows rs H. unfold table_arg. rewrite H. reflexivity. Qed.

  Lemma check_found : forall db, decl_ok (f_decl f) = true -> all_found db -> exists names, check_fields f db = Ret names /\
    forall t, In t (map fst (plain_schema f)) -> dget String.eqb names t = Some t.
  Proof.
    intros db Hd Hf.
    assert (exists names, names_found db (map fst (plain_schema f)) = Ret names) as (names & E).
    { unfold names_found. destruct (mapO _ (map fst (plain_schema f))) as [l |] eqn:E; [eexists; reflexivity |]. exfalso.
      destruct (mapO_total (fun t => bindO (get_db_table (map fst db) t) (fun o => Ret (match o with Some n => [(t, n)] | None => [] end)))
        (map fst (plain_schema f))) as (l & El); [| congruence].
      intros t Ht. apply in_map_iff in Ht as ([t' ts] & <- & Hin). cbn [fst]. destruct (Hf _ _ Hin) as [G _]. rewrite G. cbn [bindO]. eauto. }
    exists names. pose proof (names_found_spec _ _ _ E) as [A B].
    assert (forall t, In t (map fst (plain_schema f)) -> dget String.eqb names t = Some t) as C.
    { intros t Ht. destruct (A t Ht) as (o & G & ->). apply in_map_iff in Ht as ([t' ts] & <- & Hin). cbn [fst] in *. destruct (Hf _ _ Hin) as [G' _].
      rewrite G' in G. now injection G as <-. }
    split; auto. unfold check_fields. rewrite E. cbn [bindO]. destruct (forallb _ names) eqn:F; auto. exfalso.
    apply not_true_iff_false in F. apply F. apply forallb_forall. intros [t n] Hin. cbn [fst snd]. apply B in Hin as [Ht G].
    apply in_map_iff in Ht as ([t' ts] & <- & Hin). cbn [fst] in *. destruct (Hf _ _ Hin) as (G' & dt & D & Hc). rewrite G' in G. injection G as <-.
    rewrite D, (ts_of_In _ _ _ (plain_wf f Hd) Hin). apply forallb_forall. auto.
  Qed.

  (** Reading a file whose tables of the schema have the rows of the object. *)
  Theorem file_back : forall W d db db2 db3, decl_ok (f_decl f) = true -> file_wf db -> all_found db ->
    obj_ok (plain_schema f) d -> obj_keys (plain_schema f) d -> proper_keys (plain_schema f) d ->
    cells_kept f (file_trip W db) d -> params_kept date_of float_of f (file_trip W db) d ->
    same_tables db db2 ->
    (forall t ts, In (t, ts) (plain_schema f) -> exists dt rows, find_table db t = Some dt /\
       find_table db2 t = Some (set_rows dt rows) /\ Forall2 (row_as store (W t ts) ts dt) (full_rows (d t)) rows) -> same_file db2 db3 ->
    exists e, read_file date_of float_of read f db3 = Ret e /\ forall t ts, In (t, ts) (plain_schema f) -> reordered (e t) (d t).
  Proof.
    intros W d db db2 db3 Hd Hwfd Hfound Hok Hks Hpr Hc Hp Hst2 Hwr Hlike. pose proof (plain_wf f Hd) as Hwf.
    pose proof (same_tables_trans _ _ _ Hst2 (same_file_tables _ _ Hlike)) as Hst.
    destruct (before_adjustment date_of float_of f (file_trip W db) d) as (d1 & Hok1 & Hks1 & Hpr1 & Hrows & Hadj); auto.
    assert (all_found db3) as Hfound3.
    { intros t ts Hin. destruct (Hfound _ _ Hin) as (G & dt & F & C). split.
      - rewrite <- G. symmetry. apply get_db_ext. now apply same_tables_none.
      - specialize (Hst t). rewrite F in Hst. destruct Hst as (rows & ->). eexists. split; [reflexivity |]. exact C. }
    assert (forall t ts, In (t, ts) (plain_schema f) -> exists dt3 inp tb', find_table db3 t = Some dt3 /\
              table_arg (read f) t ts (db_select dt3 (tfields ts)) = Ret inp /\
              (forall dv, init_one dv t ts inp = Some tb') /\
              in_length inp = out_length tb' /\ reordered tb' (d1 t)) as Htab.
    { intros t ts Hin. destruct (Hfound _ _ Hin) as (_ & dt & F & Hcols). destruct (Hwr _ _ Hin) as (dt' & rows & F' & G & R).
      rewrite F in F'. injection F' as <-. specialize (Hlike t). rewrite G in Hlike. destruct Hlike as (rows3 & G3 & P). cbn [dt_rows set_rows] in P.
      assert (forall r, In r (full_rows (d t)) -> List.length r = List.length (tfields ts)) as Lr by (intros r; apply full_length; now apply Hok).
      assert (mapO (fun r => mapO (fun fx => read f t (fst fx) (snd fx)) (combine (tfields ts) r))
                (map (fun r => map (db_cell dt r) (tfields ts)) rows) = Ret (full_rows (d1 t))) as Hread.
      { specialize (Hrows _ _ Hin). apply mapO_Forall2.
        pose proof (Hwfd _ _ F) as Hnc. destruct (plain_fields f t ts Hd Hin) as [_ Hnf]. clear P G G3. revert R Hrows Lr. generalize (full_rows (d t)) as a, (full_rows (d1 t)) as b.
        intros a b R. revert b. induction R as [| r s a rows A _ IH]; intros b Hrows Lr; inversion Hrows as [| ? r1 ? b1 R1 R2]; subst; simpl; constructor.
        - pose proof (fun x v => row_as_cell store (W t ts) ts dt r s x v Hnc Hnf A) as Hcell. specialize (Lr r (or_introl eq_refl)).
          apply mapO_Forall2.
          assert (forall x, In x (tfields ts) -> has_col dt x = true) as Hcols' by auto.
          revert Hcell R1 Lr Hcols'. generalize (tfields ts) as fs. clear - F. intros fs. revert r r1.
          induction fs as [| x fs IH]; intros [| v r] r1 Hcell R1 L Hcols; try discriminate; simpl in *.
          + inversion R1. constructor.
          + inversion R1 as [| ? w ? ws T1 Tr]; subst. constructor.
            * destruct (Hcell x v (or_introl eq_refl) (Hcols x (or_introl eq_refl))) as (c & u & C1 & C2 & C3 & C4). cbn [fst snd] in *.
              exact (T1 dt c F C1 C2 u _ C3 C4).
            * eapply IH; eauto.
        - apply IH; auto. intros; apply Lr; simpl; auto. }
      assert (Permutation (map (fun r => map (db_cell dt r) (tfields ts)) rows3) (map (fun r => map (db_cell dt r) (tfields ts)) rows)) as P'.
      { apply Permutation_map. now symmetry. }
      destruct (mapO_perm _ _ _ _ P' Hread) as (rs & Hrs & Q).
      destruct (rows_back t ts (d1 t) rs) as (inp & tb' & E1 & E2 & E3 & E4); auto.
      - now apply Hwf in Hin.
      - specialize (Hks1 _ _ Hin). specialize (Hpr1 _ _ Hin). destruct (d1 t); auto.
      - exists (set_rows dt rows3), inp, tb'. split; auto. split; auto. subst inp. apply table_arg_rows. exact Hrs. }
    destruct (check_found db3 Hd Hfound3) as (names & Ec & En).
    set (g := fun tts : string * tschema =>
        match dget String.eqb names (fst tts) with
        | None => Ret []
        | Some n =>
            match find_table db3 n with
            | None => Raise
            | Some dt => bindO (table_arg (read f) (fst tts) (snd tts) (db_select dt (tfields (snd tts)))) (fun i => Ret [(fst tts, i)])
            end
        end).
    assert (forall l, (forall t ts, In (t, ts) l -> In (t, ts) (plain_schema f)) -> NoDup (map fst l) -> exists parts (e1 : obj), mapO g l = Ret parts /\
              map fst (List.concat parts) = map fst l /\
              (forall t inp, In (t, inp) (List.concat parts) -> exists ts, In (t, ts) l /\
                 (forall dv, init_one dv t ts inp = Some (e1 t)) /\ in_length inp = out_length (e1 t)) /\
              forall t ts, In (t, ts) l -> reordered (e1 t) (d1 t)) as Hin.
    { induction l as [| [t ts] l IH]; intros Hsub Hnd.
      - exists [], d1. simpl. split; auto. split; auto. split; [intros ? ? [] | intros ? ? []].
      - cbn [map fst] in Hnd. inversion Hnd as [| ? ? Hx Hnd']; subst.
        destruct IH as (parts & e1 & A & B & C & D); auto. { intros; apply Hsub; simpl; auto. }
        assert (In (t, ts) (plain_schema f)) as H1 by (apply Hsub; simpl; auto).
        destruct (Htab _ _ H1) as (rows' & inp & tb' & E & F & G & H & I). exists ([(t, inp)] :: parts).
        exists (fun t0 => if String.eqb t0 t then tb' else e1 t0).
        assert (g (t, ts) = Ret [(t, inp)]) as K. { unfold g. cbn [fst snd]. rewrite En by (now apply (in_map fst) in H1). rewrite E, F. reflexivity. }
        assert (forall t0 ts0, In (t0, ts0) l -> String.eqb t0 t = false) as Hne.
        { intros t0 ts0 H0. apply String.eqb_neq. intros ->. apply Hx. now apply (in_map fst) in H0. }
        cbn [mapO]. rewrite K, A. split; auto. cbn [List.concat app map fst]. split; [now rewrite B |]. split.
        + intros t0 inp0 [H0 | H0].
          * injection H0 as <- <-. exists ts. rewrite String.eqb_refl. simpl. auto.
          * destruct (C _ _ H0) as (ts0 & X & Y). exists ts0. rewrite (Hne _ _ X). simpl. auto.
        + intros t0 ts0 [H0 | H0].
          * injection H0 as <- <-. now rewrite String.eqb_refl.
          * rewrite (Hne _ _ H0). eauto. }
    destruct (Hin (plain_schema f)) as (parts & e1 & A & B & C & D); auto. { apply Hwf. }
    destruct (construct_tables (plain_schema f) (f_defaults f) (dup_mode f) e1 (List.concat parts)) as (e & E & F); auto.
    { rewrite B. apply Hwf. }
    { intros t inp H. destruct (C _ _ H) as (ts & X & Y & Z). exists ts. rewrite Z. auto. }
    { intros t ts H Hno. exfalso. apply Hno. rewrite B. now apply (in_map fst) in H. }
    unfold read_file. rewrite Ec. cbn [bindO]. fold g. rewrite A. cbn [bindO]. rewrite E. eexists. split; [reflexivity |].
    intros t ts H. rewrite <- (Hadj _ _ H). apply adjust_reordered. rewrite (F _ _ H). eauto.
  Qed.

  Theorem file_round_trip : forall W d db db2 db3, decl_ok (f_decl f) = true -> file_wf db -> all_found db ->
    obj_ok (plain_schema f) d -> obj_keys (plain_schema f) d -> proper_keys (plain_schema f) d ->
    cells_kept f (file_trip W db) d -> params_kept date_of float_of f (file_trip W db) d ->
    holds_object W d db db2 -> same_file db2 db3 ->
    exists e, read_file date_of float_of read f db3 = Ret e /\ forall t ts, In (t, ts) (plain_schema f) -> reordered (e t) (d t).
  Proof.
    intros W d db db2 db3 Hd Hwfd Hfound Hok Hks Hpr Hc Hp Hwr Hlike.
    exact (file_back W d db db2 db3 Hd Hwfd Hfound Hok Hks Hpr Hc Hp (holds_tables _ _ _ _ Hwr) (proj1 Hwr) Hlike).
  Qed.
End Engine.
