(** * Database files: duplicate keys. *)
From Coq Require Import ZArith Bool List String Ascii Arith Lia Permutation.
From Verif Require Import PyVal PyValFacts PyDict PyDictFacts PyStr ListFacts TypeDict Data FindTypes FindTypesFacts FK Graph GraphFacts
  Obj ObjFacts ObjMore Factory FactoryFacts InfIO InfIOFacts Params Names NamesFacts Utils UtilsMore Ampl Json ObjRows JsonFacts JsonDups TripFacts Sql SqlFacts
  Csv CsvMore Pg PgFacts PgWrite PgTrip PgRead FileDb FileDbFacts FileDbTrip.
Import ListNotations.
Local Open Scope string_scope.
Local Open Scope list_scope.

Section Dups.
  Variable date_of : value -> option Z.
  Variable float_of : value -> option value.
  Variable read : factory -> string -> string -> value -> outcome value.

  Definition row_of (f : factory) (t : string) (ts : tschema) (r r' : list value) : Prop :=
    Forall2 (fun fx v => read f t (fst fx) (snd fx) = Ret v) (combine (tfields ts) r) r'.

  (** Reading, table by table. *)
  Lemma read_from : forall f db names (e : obj), decl_ok (f_decl f) = true -> check_fields f db = Ret names ->
    (forall t ts, In (t, ts) (plain_schema f) ->
       match dget String.eqb names t with
       | None => e t = no_rows ts
       | Some n => exists dt rs, find_table db n = Some dt /\ Forall2 (row_of f t ts) (db_select dt (tfields ts)) rs /\
            init_one (f_defaults f) t ts (rows_in ts rs) = Some (e t) /\ in_length (rows_in ts rs) <= out_length (e t)
       end) ->
    exists e', read_file date_of float_of read f db = Ret (adjust_params date_of float_of f e') /\
      forall t ts, In (t, ts) (plain_schema f) -> e' t = e t.
  Proof.
    intros f db names e Hd Hc He. pose proof (plain_wf f Hd) as Hwf. unfold read_file. rewrite Hc. cbn [bindO]. set (g := fun tts : string * tschema => _).
    assert (forall l, (forall t ts, In (t, ts) l -> In (t, ts) (plain_schema f)) -> NoDup (map fst l) -> exists parts, mapO g l = Ret parts /\
              NoDup (map fst (List.concat parts)) /\ (forall t, In t (map fst (List.concat parts)) -> In t (map fst l)) /\
              (forall t inp, In (t, inp) (List.concat parts) -> exists ts, In (t, ts) l /\ init_one (f_defaults f) t ts inp = Some (e t) /\ in_length inp <= out_length (e t)) /\
              forall t ts, In (t, ts) l -> ~ In t (map fst (List.concat parts)) -> e t = no_rows ts) as Hl.
    { induction l as [| [t ts] l IH]; intros Hsub Hnd.
      - exists []. simpl. split; auto. split; [constructor |]. split; auto. split; intros ? ? [].
      - cbn [map fst] in Hnd. apply NoDup_cons_iff in Hnd as [Hx Hnd].
        destruct IH as (parts & A & B & C & D & E); auto. { intros; apply Hsub; simpl; auto. }
        assert (In (t, ts) (plain_schema f)) as H1 by (apply Hsub; simpl; auto). specialize (He _ _ H1).
        cbn [mapO]. unfold g at 1. cbn [fst snd]. destruct (dget String.eqb names t) as [n |] eqn:G.
        + destruct He as (dt & rs & G2 & F & I & L). rewrite G2. rewrite (table_arg_rows f read t ts _ rs).
          2: { apply mapO_Forall2. clear - F. induction F as [| r r' l m H _ IH]; constructor; auto. apply mapO_Forall2. exact H. }
          cbn [bindO]. rewrite A. exists ([(t, rows_in ts rs)] :: parts). split; auto. cbn [List.concat app map fst]. split; [| split; [| split]].
          * constructor; auto.
          * intros t0 [<- | H0]; simpl; auto.
          * intros t0 inp [H0 | H0]; [injection H0 as <- <-; exists ts; simpl; auto |]. destruct (D _ _ H0) as (ts0 & X & Y). exists ts0. simpl. auto.
          * intros t0 ts0 [H0 | H0] N; [injection H0 as <- <-; exfalso; apply N; simpl; auto |]. apply (E _ _ H0). intros H2. apply N. simpl. auto.
        + rewrite A. exists ([] :: parts). split; auto. cbn [List.concat app map fst]. split; [| split; [| split]]; auto.
          * simpl. auto.
          * intros t0 inp H0. destruct (D _ _ H0) as (ts0 & X & Y). exists ts0. simpl. auto.
          * intros t0 ts0 [H0 | H0] N; [injection H0 as <- <-; auto | eauto]. }
    destruct (Hl (plain_schema f)) as (parts & A & B & C & D & E); auto. { apply Hwf. } rewrite A. cbn [bindO].
    destruct (construct_tables (plain_schema f) (f_defaults f) (dup_mode f) e (List.concat parts)) as (e' & X & Y); auto.
    rewrite X. eauto.
  Qed.

  (** The keys of the rows of a table, each cell converted by [R]. *)
  Definition file_keys (R : value -> value) (db : filedb) (t : string) (ts : tschema) : list (list value) :=
    match get_db_table (map fst db) t with
    | Ret (Some n) => match find_table db n with
                      | Some dt => map (map R) (db_select dt (tpk ts))
                      | None => []
                      end
    | _ => []
    end.

  Theorem file_duplicates_exact : forall f R db, decl_ok (f_decl f) = true ->
    (forall t ts x v, In (t, ts) (plain_schema f) -> tpk ts <> [] -> read (duplicate_focused f) t x v = Ret (R v)) ->
    (forall t ts, In (t, ts) (plain_schema f) -> tpk ts <> [] -> exists o, get_db_table (map fst db) t = Ret o /\
       forall n, o = Some n -> exists dt, find_table db n = Some dt /\ forall x, In x (tpk ts) -> has_col dt x = true) ->
    exists rep, file_duplicates date_of float_of read f db = Ret rep /\
      (forall t d, In (t, d) rep -> d <> [] /\ (exists ts, In (t, ts) (plain_schema f) /\ tpk ts <> []) /\
         forall i j k m k' m', nth_error d i = Some (k, m) -> nth_error d j = Some (k', m') -> key_pyeq k k' = true -> i = j) /\
      forall t ts, In (t, ts) (plain_schema f) -> tpk ts <> [] ->
        forall k n, (exists d k', In (t, d) rep /\ In (k', n) d /\ key_pyeq k' k = true) <-> n = occurrences k (file_keys R db t ts) /\ 1 < n.
  Proof.
    intros f R db Hd HR Hcols. pose proof (plain_wf f Hd) as Hwf. unfold file_duplicates.
    set (pks := map (fun tts : string * tschema => (fst tts, tpk (snd tts))) (keyed_tables (plain_schema f))).
    assert (forall t flds, In (t, flds) pks <-> exists ts, In (t, ts) (plain_schema f) /\ tpk ts <> [] /\ flds = tpk ts) as Hpks.
    { intros t flds. unfold pks. rewrite in_map_iff. split.
      - intros ([t0 ts] & E & H). injection E as <- <-. apply keys_tables_In in H. cbn [fst snd]. exists ts. tauto.
      - intros (ts & A & B & ->). exists (t, ts). split; auto. now apply keys_tables_In. }
    assert (NoDup (map fst pks)) as Hnp.
    { unfold pks. rewrite map_map. cbn [fst]. unfold keyed_tables. apply filter_names_nodup. apply Hwf. }
    pose proof (focused_decl_ok f Hd) as Hd'.
    assert (forall t ts, In (t, ts) (plain_schema f) -> wf_tschema (mkT [] (tpk ts))) as Hw1.
    { intros t ts A. unfold wf_tschema, tfields. cbn [tpk tdf app]. apply Hwf in A. unfold wf_tschema, tfields in A. now apply NoDup_app_l in A. }
    assert (exists names, check_fields (duplicate_focused f) db = Ret names /\
              forall t ts, In (t, ts) (plain_schema f) -> tpk ts <> [] -> get_db_table (map fst db) t = Ret (dget String.eqb names t)) as (names & Hnames & Hget).
    { assert (exists names, names_found db (map fst (plain_schema (duplicate_focused f))) = Ret names) as (names & E).
      { unfold names_found. destruct (mapO_total (fun t => bindO (get_db_table (map fst db) t) (fun o => Ret (match o with Some n => [(t, n)] | None => [] end)))
          (map fst (plain_schema (duplicate_focused f)))) as (l & ->); [| eexists; reflexivity].
        intros t Ht. apply in_map_iff in Ht as ([t' ts] & <- & Hin). cbn [fst]. apply (focused_In date_of float_of) in Hin as (ts0 & A & B & _).
        destruct (Hcols _ _ A B) as (o & -> & _). cbn [bindO]. eexists. reflexivity. }
      pose proof (names_found_spec _ _ _ E) as [N1 N2]. exists names. split.
      - unfold check_fields. rewrite E. cbn [bindO]. destruct (forallb _ names) eqn:F; auto. exfalso. apply not_true_iff_false in F. apply F.
        apply forallb_forall. intros [t n] Hin. cbn [fst snd]. apply N2 in Hin as [Ht G]. apply in_map_iff in Ht as ([t' ts] & <- & Hin). cbn [fst] in *.
        rewrite (ts_of_In _ _ _ (plain_wf _ Hd') Hin). apply (focused_In date_of float_of) in Hin as (ts0 & A & B & ->).
        destruct (Hcols _ _ A B) as (o & G' & C). rewrite G in G'. injection G' as <-. destruct (C n eq_refl) as (dt & -> & C'). apply forallb_forall. exact C'.
      - intros t ts A B. destruct (N1 t) as (o & -> & ->); auto.
        apply in_map_iff. exists (t, mkT [] (tpk ts)). split; auto. apply (focused_In date_of float_of). eauto. }
    destruct (read_from (duplicate_focused f) db names (fun t => OListed (file_keys R db t (ts_of (plain_schema f) t)))) as (e & He & Hsame); auto.
    { intros t ts Hin. pose proof Hin as Hin'. apply (focused_In date_of float_of) in Hin as (ts0 & A & B & ->). unfold file_keys. rewrite (ts_of_In _ t ts0) by auto.
      destruct (Hcols _ _ A B) as (o & G' & C). specialize (Hget _ _ A B). rewrite G' in Hget. injection Hget as <-. rewrite G'.
      destruct o as [n |]; [| reflexivity]. destruct (C n eq_refl) as (dt & G & C'). rewrite G. unfold tfields. cbn [tpk tdf app].
      exists dt, (map (map R) (db_select dt (tpk ts0))).
      assert (forall r, In r (db_select dt (tpk ts0)) -> List.length r = List.length (tpk ts0)) as L.
      { intros r Hr. unfold db_select in Hr. apply in_map_iff in Hr as (r0 & <- & _). now rewrite map_length. }
      split; auto. split.
      - revert L. generalize (db_select dt (tpk ts0)) as rs. intros rs L.
        induction rs as [| r rs IH]; simpl; constructor; [| apply IH; intros; apply L; simpl; auto].
        unfold row_of. unfold tfields. cbn [tpk tdf app]. specialize (L r (or_introl eq_refl)).
        assert (forall fs (r : list value), List.length r = List.length fs ->
                  Forall2 (fun (fx : string * value) (v : value) => read (duplicate_focused f) t (fst fx) (snd fx) = Ret v) (combine fs r) (map R r)) as Q; [| now apply Q].
        clear r L IH. induction fs as [| x fs IH]; intros [| v r] L; try discriminate; simpl; constructor; auto.
        eapply HR; eauto.
      - assert (forall r, In r (map (map R) (db_select dt (tpk ts0))) -> List.length r = List.length (tpk ts0)) as L'.
        { intros r Hr. apply in_map_iff in Hr as (r0 & <- & Hr). rewrite map_length. auto. }
        set (rs := map (map R) (db_select dt (tpk ts0))) in *. clearbody rs.
        unfold rows_in, init_one. cbn [tpk in_length out_length]. rewrite map_length. split; auto.
        assert (good_rows (tdf (mkT [] (tpk ts0))) (map RSeq rs) = true) as ->.
        { apply good_rows_iff. intros x Hx. apply in_map_iff in Hx as (r & <- & Hr). simpl. now apply L'. }
        assert (map_opt (row_factory (f_defaults (duplicate_focused f)) t (mkT [] (tpk ts0))) (map RSeq rs) = Some rs) as ->; auto.
        induction rs as [| r rs IH]; auto. cbn [map map_opt]. rewrite row_factory_seq by (apply L'; simpl; auto). rewrite IH; auto. intros; apply L'; simpl; auto. }
    assert (match keyed_tables (plain_schema f) with
            | [] => Ret []
            | kt => bindO (read_file date_of float_of read (duplicate_focused f) db) (fun td =>
               find_duplicates (map (fun tts => (fst tts, tpk (snd tts))) kt)
                 (fun t => match td t with
                           | OListed l => map (combine (tpk (ts_of (plain_schema f) t))) l
                           | OKeyed _ => []
                           end))
            end = find_duplicates pks (fun t => match adjust_params date_of float_of (duplicate_focused f) e t with
                           | OListed l => map (combine (tpk (ts_of (plain_schema f) t))) l
                           | OKeyed _ => []
                           end)) as Eq.
    { unfold pks. destruct (keyed_tables (plain_schema f)) eqn:K; [reflexivity |]. rewrite He. reflexivity. }
    rewrite Eq. clear Eq. set (rowf := fun t : string => _).
    assert (forall t ts, In (t, ts) (plain_schema f) -> tpk ts <> [] -> Forall2 (key_in_row (tpk ts)) (rowf t) (file_keys R db t ts)) as Hkeys.
    { intros t ts A B. unfold rowf. assert (adjust_params date_of float_of (duplicate_focused f) e t = e t) as ->.
      { unfold adjust_params. rewrite andb_false_r. reflexivity. }
      rewrite (Hsame t (mkT [] (tpk ts))) by (apply (focused_In date_of float_of); eauto). rewrite (ts_of_In _ t ts) by auto.
      assert (forall k, In k (file_keys R db t ts) -> List.length k = List.length (tpk ts)) as L.
      { intros k Hk. unfold file_keys in Hk. destruct (get_db_table (map fst db) t) as [[n |] |]; try contradiction.
        destruct (find_table db n); [| contradiction]. apply in_map_iff in Hk as (r & <- & Hr). rewrite map_length.
        unfold db_select in Hr. apply in_map_iff in Hr as (r0 & <- & _). now rewrite map_length. }
      assert (NoDup (tpk ts)) as Nk. { apply Hwf in A. unfold wf_tschema, tfields in A. now apply NoDup_app_l in A. }
      revert L. generalize (file_keys R db t ts) as ks. induction ks as [| k ks IH]; intros L; simpl; constructor; [| apply IH; intros; apply L; simpl; auto].
      specialize (L k (or_introl eq_refl)). pose proof (key_row (mkT (tpk ts) []) k) as Q. unfold wf_tschema, tfields in Q. cbn [tpk tdf] in Q. rewrite app_nil_r in Q.
      rewrite <- L, firstn_all in Q. apply Q; auto. }
    destruct (find_duplicates_total pks rowf) as (rep & Hr).
    { intros t flds H. apply Hpks in H as (ts & A & B & ->). eauto. }
    exists rep. split; [exact Hr |]. split.
    - intros t d Hin. destruct (find_duplicates_reports _ _ _ _ _ Hr Hin) as (A & B & C). split; auto. split; auto.
      apply in_map_iff in A as ([t1 flds] & E & A). cbn [fst] in E. subst t1. apply Hpks in A as (ts & X & Y & _). eauto.
    - intros t ts A B. eapply find_duplicates_counts; eauto. apply Hpks. eauto.
  Qed.

End Dups.

(** What SQLite reading makes of a cell when no setting is used (sqlitetd.py 187-195). *)
Definition plain_read (v : value) : value :=
  match v with
  | VStr s =>
      if String.eqb (lower s) "inf" then VNum PInf
      else if String.eqb (lower s) "-inf" then VNum NInf
      else if String.eqb (lower s) "true" then VBool true
      else if String.eqb (lower s) "false" then VBool false
      else v
  | _ => v
  end.

Lemma focused_general : forall date_of float_of f t x v, (exists ts, In (t, ts) (plain_schema f) /\ tpk ts <> []) ->
  fst (read_cell date_of float_of (mkIO (duplicate_focused f) []) t x v) = Ret v.
Proof.
  intros date_of float_of f t x v (ts & A & B).
  assert (In (t, mkT [] (tpk ts)) (plain_schema (duplicate_focused f))) as H by (apply (focused_In date_of float_of); eauto).
  unfold read_cell. cbn [io_fac]. rewrite (plain_is_table _ _ _ H). cbn [negb].
  destruct (String.eqb t "parameters"); auto. destruct v; reflexivity.
Qed.

Lemma focused_sql : forall date_of float_of f t x v, (exists ts, In (t, ts) (plain_schema f) /\ tpk ts <> []) ->
  read_data_cell date_of float_of (duplicate_focused f) t x v = Ret (plain_read v).
Proof.
  intros date_of float_of f t x v H. unfold read_data_cell. rewrite focused_general by auto. unfold plain_read. destruct v as [| | | | s |]; auto.
  assert (has_params (duplicate_focused f) = false) as -> by reflexivity. rewrite andb_false_r. cbn [f_flag duplicate_focused negb].
  assert (value_eqb (VStr "N/A") (VStr "N/A") = true) as -> by reflexivity. rewrite !andb_true_r.
  destruct (String.eqb (lower s) "inf") eqn:E1; auto. cbn [orb]. destruct (String.eqb (lower s) "-inf") eqn:E2; auto. cbn [orb].
  destruct (String.eqb (lower s) "true"); auto. destruct (String.eqb (lower s) "false"); auto.
Qed.
