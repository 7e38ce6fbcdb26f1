(** * Postgres: the active field, and the duplicates report. *)
From Coq Require Import ZArith Bool List String Ascii Arith Lia Permutation.
From Verif Require Import PyVal PyValFacts PyDict PyDictFacts PyStr ListFacts TypeDict Data FindTypes FindTypesFacts FK Graph GraphFacts
  Obj ObjFacts ObjMore Factory FactoryFacts InfIO InfIOFacts Params Names NamesFacts Utils UtilsMore Ampl Json ObjRows JsonFacts JsonDups TripFacts Sql SqlFacts
  Pg PgFacts PgWrite PgTrip.
Import ListNotations.
Local Open Scope string_scope.
Local Open Scope list_scope.

Lemma mapO_ext' {A B} (g h : A -> outcome B) : forall l, (forall x, In x l -> g x = h x) -> mapO g l = mapO h l.
Proof. induction l as [| x l IH]; intros H; simpl; auto. rewrite (H x) by (simpl; auto). rewrite IH; auto. intros; apply H; simpl; auto. Qed.

(** The rows flagged True, in tables with the active column; other tables stay. *)
Definition only_active (a : string) (db : pgdb) : pgdb :=
  map (fun tp => (fst tp,
    if mem_str a (map c_name (pt_cols (snd tp)))
    then with_rows (snd tp) (filter (fun r => value_eqb (pg_cell (snd tp) r a) (VBool true)) (pt_rows (snd tp)))
    else snd tp)) db.

Lemma only_active_get : forall a db t, dget String.eqb (only_active a db) t =
  option_map (fun pt => if mem_str a (map c_name (pt_cols pt))
    then with_rows pt (filter (fun r => value_eqb (pg_cell pt r a) (VBool true)) (pt_rows pt)) else pt) (dget String.eqb db t).
Proof.
  intros a db t. unfold only_active. induction db as [| [u pt] db IH]; simpl; auto. destruct (String.eqb u t); auto.
Qed.

Section Read.
  Variable date_of : value -> option Z.
  Variable float_of : value -> option value.

  Let pg_create := pg_create date_of float_of.
  Let pg_read_cell := pg_read_cell date_of float_of.

  Lemma check_active : forall f a db b, check_tables f (only_active a db) b = check_tables f db b.
  Proof.
    intros f a db b. unfold check_tables.
    assert (forall t, dmem String.eqb (only_active a db) t = dmem String.eqb db t) as Hm.
    { intros t. unfold dmem. rewrite only_active_get. now destruct (dget String.eqb db t). }
    assert (forall p : string * tschema, match dget String.eqb (only_active a db) (fst p) with
              | None => true | Some pt => forallb (fun x => mem_str (pg_name x) (map c_name (pt_cols pt))) (tfields (snd p)) end =
            match dget String.eqb db (fst p) with
              | None => true | Some pt => forallb (fun x => mem_str (pg_name x) (map c_name (pt_cols pt))) (tfields (snd p)) end) as Hc.
    { intros p. rewrite only_active_get. destruct (dget String.eqb db (fst p)) as [pt |]; simpl; auto. now destruct (mem_str a (map c_name (pt_cols pt))). }
    assert (forall l, forallb (fun tts : string * tschema => match dget String.eqb (only_active a db) (fst tts) with
              | None => true | Some pt => forallb (fun x => mem_str (pg_name x) (map c_name (pt_cols pt))) (tfields (snd tts)) end) l =
            forallb (fun tts : string * tschema => match dget String.eqb db (fst tts) with
              | None => true | Some pt => forallb (fun x => mem_str (pg_name x) (map c_name (pt_cols pt))) (tfields (snd tts)) end) l) as ->.
    { induction l as [| p l IH]; simpl; auto. now rewrite Hc, IH. }
    assert (forall l, filter (fun t => negb (dmem String.eqb (only_active a db) t)) l = filter (fun t => negb (dmem String.eqb db t)) l) as ->; auto.
    induction l as [| t l IH]; simpl; auto. now rewrite Hm, IH.
  Qed.

  Theorem read_active : forall f a db, a <> "" -> pg_name a = a -> NoDup (map fst db) ->
    pg_create f a db = pg_create f "" (only_active a db).
  Proof.
    intros f a db Ha Hn Hd. unfold pg_create, Pg.pg_create. rewrite Hn, String.eqb_refl.
    assert (String.eqb (pg_name "") "" = true) as -> by reflexivity. rewrite check_active.
    destruct (names_ok f && no_generics f) eqn:E.
    2: { assert (forall b c d : bool, b && c = false -> true && b && c && d = false) as X by (intros [] [] []; auto). rewrite !X by auto. reflexivity. }
    apply andb_true_iff in E as [-> ->]. cbn [andb]. destruct (Nat.eqb _ 0); [| reflexivity].
    destruct (check_tables f db false) as [missing |]; [| reflexivity]. cbn [bindO]. f_equal. apply mapO_ext'. intros [t ts] _. cbn [fst snd].
    rewrite only_active_get, active_mem by auto. apply String.eqb_neq in Ha.
    destruct (dget String.eqb db t) as [pt |] eqn:G; auto. cbn [option_map]. rewrite Ha. cbn [negb andb].
    unfold active_tables. cbn [String.eqb]. unfold mem_str at 3. cbn [existsb]. destruct (mem_str a (map c_name (pt_cols pt))); auto.
    unfold select_rows. cbn [pt_rows with_rows]. f_equal. f_equal.
    rewrite (filter_all (fun _ => true)) by auto. reflexivity.
  Qed.

  (** ** Reading, table by table *)

  Definition row_read (f : factory) (t : string) (ts : tschema) (r r' : list value) : Prop :=
    Forall2 (fun fx v => pg_read_cell f t (fst fx) (snd fx) = Ret v) (combine (tfields ts) r) r'.

  Lemma create_from : forall f a db (e : obj), decl_ok (f_decl f) = true -> names_ok f = true -> no_generics f = true -> f_gens f = [] -> pg_name a = a ->
    NoDup (map fst db) ->
    (forall t ts pt, In (t, ts) (plain_schema f) -> dget String.eqb db t = Some pt -> forall x, In x (tfields ts) -> In (pg_name x) (map c_name (pt_cols pt))) ->
    (forall t ts, In (t, ts) (plain_schema f) ->
       match dget String.eqb db t with
       | None => e t = no_rows ts
       | Some pt => exists rs, Forall2 (row_read f t ts)
            (select_rows pt (map pg_name (tfields ts)) (if mem_str t (active_tables db a) then Some a else None)) rs /\
            init_one (f_defaults f) t ts (rows_in ts rs) = Some (e t) /\ in_length (rows_in ts rs) <= out_length (e t)
       end) ->
    exists e', pg_create f a db = Ret (adjust_params date_of float_of f e') /\ forall t ts, In (t, ts) (plain_schema f) -> e' t = e t.
  Proof.
    intros f a db e Hd Hn Hng Hg Ha Hdb Hcols He. pose proof (plain_wf f Hd) as Hwf.
    unfold pg_create, Pg.pg_create. rewrite Ha, String.eqb_refl, Hn, Hng, Hg. cbn [andb List.length Nat.eqb].
    assert (exists missing, check_tables f db false = Ret missing) as (missing & ->).
    { unfold check_tables. destruct (forallb _ (plain_schema f)) eqn:Fc.
      - rewrite andb_false_r. eauto.
      - exfalso. apply not_true_iff_false in Fc. apply Fc. apply forallb_forall. intros [t ts] H. cbn [fst snd].
        destruct (dget String.eqb db t) as [pt |] eqn:G; auto. apply forallb_forall. intros x Hx. apply mem_str_iff. eapply Hcols; eauto. }
    cbn [bindO]. set (g := fun tts : string * tschema => _).
    assert (forall l, (forall t ts, In (t, ts) l -> In (t, ts) (plain_schema f)) -> NoDup (map fst l) -> exists parts, mapO g l = Ret parts /\
              NoDup (map fst (List.concat parts)) /\
              (forall t, In t (map fst (List.concat parts)) -> In t (map fst l)) /\
              (forall t inp, In (t, inp) (List.concat parts) -> exists ts, In (t, ts) l /\ init_one (f_defaults f) t ts inp = Some (e t) /\ in_length inp <= out_length (e t)) /\
              forall t ts, In (t, ts) l -> ~ In t (map fst (List.concat parts)) -> e t = no_rows ts) as Hl.
    { induction l as [| [t ts] l IH]; intros Hsub Hnd.
      - exists []. simpl. split; auto. split; [constructor |]. split; auto. split; intros ? ? [].
      - cbn [map fst] in Hnd. apply NoDup_cons_iff in Hnd as [Hx Hnd].
        destruct IH as (parts & A & B & C & D & E); auto. { intros; apply Hsub; simpl; auto. }
        assert (In (t, ts) (plain_schema f)) as H1 by (apply Hsub; simpl; auto). specialize (He _ _ H1).
        cbn [mapO]. unfold g at 1. cbn [fst snd]. destruct (dget String.eqb db t) as [pt |] eqn:G.
        + destruct He as (rs & F & I & L). rewrite (table_in_rows date_of float_of f t ts _ rs).
          2: { apply mapO_Forall2. clear - F. induction F as [| r r' l m H _ IH]; constructor; auto. apply mapO_Forall2. exact H. }
          cbn [bindO]. rewrite A. exists ([(t, rows_in ts rs)] :: parts). split; auto. cbn [List.concat app map fst]. split; [| split; [| split]].
          * constructor; auto.
          * intros t0 [<- | H0]; simpl; auto.
          * intros t0 inp [H0 | H0]; [injection H0 as <- <-; exists ts; simpl; auto |]. destruct (D _ _ H0) as (ts0 & X & Y). exists ts0. simpl. auto.
          * intros t0 ts0 [H0 | H0] N; [injection H0 as <- <-; exfalso; apply N; simpl; auto |]. apply (E _ _ H0). intros H2. apply N. simpl. auto.
        + rewrite A. exists ([] :: parts). split; auto. cbn [List.concat app map fst]. split; [| split; [| split]]; auto.
          * simpl. auto.
          * intros t0 inp H0. destruct (D _ _ H0) as (ts0 & X & Y). exists ts0. simpl. auto.
          * intros t0 ts0 [H0 | H0] N; [injection H0 as <- <-; auto | eauto]. }
    destruct (Hl (plain_schema f)) as (parts & A & B & C & D & E); auto. { apply Hwf. } rewrite A. cbn [bindO].
    destruct (construct_tables (plain_schema f) (f_defaults f) (dup_mode f) e (List.concat parts)) as (e' & X & Y); auto.
    rewrite X. eauto.
  Qed.

  (** ** Duplicates *)

  Lemma focused_plain : forall f, plain_schema (duplicate_focused f) =
    map (fun tts => (fst tts, mkT [] (tpk (snd tts)))) (keyed_tables (plain_schema f)).
  Proof.
    intros f. unfold plain_schema at 1, duplicate_focused. cbn [f_decl]. induction (keyed_tables (plain_schema f)) as [| [t ts] l IH]; auto.
    cbn [map flat_map fst snd app]. now rewrite IH.
  Qed.

  Lemma focused_In : forall f t ts, In (t, ts) (plain_schema (duplicate_focused f)) <->
    exists ts0, In (t, ts0) (plain_schema f) /\ tpk ts0 <> [] /\ ts = mkT [] (tpk ts0).
  Proof.
    intros f t ts. rewrite focused_plain, in_map_iff. split.
    - intros ([t0 ts0] & E & H). injection E as <- <-. apply keys_tables_In in H. cbn [fst snd]. exists ts0. tauto.
    - intros (ts0 & A & B & ->). exists (t, ts0). split; auto. now apply keys_tables_In.
  Qed.

  Lemma focused_decl_ok : forall f, decl_ok (f_decl f) = true -> decl_ok (f_decl (duplicate_focused f)) = true.
  Proof.
    intros f Hd. pose proof (plain_legal f Hd) as [Hl _]. pose proof Hd as H. unfold decl_ok in H. rewrite !andb_true_iff in H. destruct H as [[[H1 H2] _] H4].
    rewrite forallb_forall in H1, H2, H4. unfold decl_ok, duplicate_focused. cbn [f_decl]. rewrite !andb_true_iff.
    assert (forall td, In td (map (fun tts => (fst tts, Fields (mkT [] (tpk (snd tts))))) (keyed_tables (plain_schema f))) ->
              exists t ts, td = (t, Fields (mkT [] (tpk ts))) /\ In (t, Fields ts) (f_decl f) /\ tpk ts <> []) as Hin.
    { intros td Htd. apply in_map_iff in Htd as ([t ts] & <- & Hk). apply keys_tables_In in Hk as [Hk Hne]. apply in_plain in Hk. cbn [fst snd]. eauto. }
    split; [split; [split |] |].
    - apply forallb_forall. intros td Htd. destruct (Hin _ Htd) as (t & ts & -> & A & _). apply (H1 _ A).
    - apply forallb_forall. intros td Htd. destruct (Hin _ Htd) as (t & ts & -> & A & _). apply (H2 _ A).
    - apply distinct_b_iff. rewrite map_map. cbn [fst]. rewrite <- (map_map fst lower). clear - Hl. unfold keyed_tables.
      induction (plain_schema f) as [| p l IH]; simpl; [constructor |]. cbn [map] in Hl. apply NoDup_cons_iff in Hl as [Hx Hl].
      destruct (negb _); simpl; auto. constructor; auto. intros Hc. apply Hx. apply in_map_iff in Hc as (t & E & Hc).
      apply in_map_iff in Hc as (q & Eq & Hq). apply filter_In in Hq as [Hq _]. rewrite <- E. apply in_map. rewrite <- Eq. now apply in_map.
    - apply forallb_forall. intros td Htd. destruct (Hin _ Htd) as (t & ts & -> & A & B). specialize (H4 _ A). cbn [snd decl_table_ok] in *.
      rewrite !andb_true_iff in H4. destruct H4 as [[_ Q2] Q3]. cbn [tpk tdf app]. apply distinct_b_iff in Q2, Q3. rewrite map_app in Q3. rewrite !andb_true_iff. split; [split |].
      + destruct (tpk ts); [contradiction | reflexivity].
      + apply distinct_b_iff. now apply NoDup_app_l in Q2.
      + apply distinct_b_iff. now apply NoDup_app_l in Q3.
  Qed.
  Lemma focused_reads : forall f t ts x v, In (t, ts) (plain_schema (duplicate_focused f)) -> pg_read_cell (duplicate_focused f) t x v = Ret v.
  Proof.
    intros f t ts x v Hin. unfold pg_read_cell, Pg.pg_read_cell, read_cell. cbn [io_fac]. rewrite (plain_is_table _ _ _ Hin). cbn [negb].
    destruct (String.eqb t "parameters"); auto. destruct v; reflexivity.
  Qed.

  Lemma focused_names : forall f, names_ok f = true -> names_ok (duplicate_focused f) = true.
  Proof.
    intros f H. unfold names_ok, pg_compatible in *. rewrite forallb_forall in *. intros [t fs] Hin. apply in_map_iff in Hin as ([t0 td] & E & Hin).
    unfold duplicate_focused in Hin. cbn [f_decl] in Hin. apply in_map_iff in Hin as ([t1 ts] & E1 & Hin). cbn [fst snd] in E1. injection E1 as <- <-.
    cbn [fst snd] in E. injection E as <- <-. unfold tfields. cbn [tpk tdf app]. apply keys_tables_In in Hin as [Hin _]. apply in_plain in Hin.
    assert (In (t1, tfields ts) (map (fun td => (fst td, match snd td with Fields ts => tfields ts | Generic => [] end)) (f_decl f))) as Hm.
    { apply in_map_iff. exists (t1, Fields ts). auto. }
    specialize (H _ Hm). cbn [fst snd] in *. rewrite !andb_true_iff in *. destruct H as [[A B] C]. rewrite forallb_forall in *. unfold tfields in *.
    split; [split |]; auto.
    - assert (distinct_b (map pg_name (tpk ts ++ tdf ts)) = true) as D by (unfold distinct_b; now rewrite map_length, Nat.eqb_sym).
      apply distinct_b_iff in D. rewrite map_app in D. apply NoDup_app_l in D. apply distinct_b_iff in D. unfold distinct_b in D.
      now rewrite map_length, Nat.eqb_sym in D.
    - intros x Hx. apply C. apply in_app_iff. auto.
  Qed.

  (** The keys of the rows that count. *)
  Definition stored_keys (a : string) (db : pgdb) (t : string) (ts : tschema) : list (list value) :=
    match dget String.eqb db t with
    | None => []
    | Some pt => map (fun r => pg_cells pt r (map pg_name (tpk ts)))
                   (filter (fun r => negb (negb (String.eqb a "") && mem_str a (map c_name (pt_cols pt))) || value_eqb (pg_cell pt r a) (VBool true)) (pt_rows pt))
    end.

  Theorem duplicates_exact : forall f a db, decl_ok (f_decl f) = true -> names_ok f = true -> pg_name a = a -> NoDup (map fst db) ->
    (forall t ts pt, In (t, ts) (plain_schema f) -> dget String.eqb db t = Some pt -> forall x, In x (tpk ts) -> In (pg_name x) (map c_name (pt_cols pt))) ->
    exists rep, pg_duplicates date_of float_of f a db = Ret rep /\
      (forall t d, In (t, d) rep -> d <> [] /\ (exists ts, In (t, ts) (plain_schema f) /\ tpk ts <> []) /\
         forall i j k m k' m', nth_error d i = Some (k, m) -> nth_error d j = Some (k', m') -> key_pyeq k k' = true -> i = j) /\
      forall t ts, In (t, ts) (plain_schema f) -> tpk ts <> [] ->
        forall k n, (exists d k', In (t, d) rep /\ In (k', n) d /\ key_pyeq k' k = true) <-> n = occurrences k (stored_keys a db t ts) /\ 1 < n.
  Proof.
    intros f a db Hd Hn Ha Hdb Hcols. pose proof (plain_wf f Hd) as Hwf. unfold pg_duplicates. rewrite Hn. cbn [negb].
    set (pks := map (fun tts : string * tschema => (fst tts, tpk (snd tts))) (keyed_tables (plain_schema f))).
    assert (forall t flds, In (t, flds) pks <-> exists ts, In (t, ts) (plain_schema f) /\ tpk ts <> [] /\ flds = tpk ts) as Hpks.
    { intros t flds. unfold pks. rewrite in_map_iff. split.
      - intros ([t0 ts] & E & H). injection E as <- <-. apply keys_tables_In in H. cbn [fst snd]. exists ts. tauto.
      - intros (ts & A & B & ->). exists (t, ts). split; auto. now apply keys_tables_In. }
    assert (NoDup (map fst pks)) as Hnp.
    { unfold pks. rewrite map_map. cbn [fst]. unfold keyed_tables. apply filter_names_nodup. apply Hwf. }
    destruct (create_from (duplicate_focused f) a db (fun t => OListed (stored_keys a db t (ts_of (plain_schema f) t)))) as (e & He & Hsame); auto.
    { now apply focused_decl_ok. }
    { now apply focused_names. }
    { unfold no_generics, duplicate_focused. cbn [f_decl]. apply forallb_forall. intros td Htd. apply in_map_iff in Htd as (tts & <- & _). reflexivity. }
    { intros t ts pt Hin G x Hx. apply focused_In in Hin as (ts0 & A & B & ->). cbn [tfields tpk tdf app] in Hx. eapply Hcols; eauto. }
    { intros t ts Hin. pose proof Hin as Hin'. apply focused_In in Hin as (ts0 & A & B & ->). unfold stored_keys. rewrite (ts_of_In _ t ts0) by auto.
      destruct (dget String.eqb db t) as [pt |] eqn:G; [| reflexivity]. unfold tfields. cbn [tpk tdf app].
      set (rows := filter _ (pt_rows pt)).
      exists (map (fun r => pg_cells pt r (map pg_name (tpk ts0))) rows).
      assert (select_rows pt (map pg_name (tpk ts0)) (if mem_str t (active_tables db a) then Some a else None) =
              map (fun r => pg_cells pt r (map pg_name (tpk ts0))) rows) as ->.
      { unfold select_rows. f_equal. unfold rows. rewrite active_mem, G by auto. apply filter_ext. intros r.
        now destruct (negb (String.eqb a "") && mem_str a (map c_name (pt_cols pt))). }
      assert (forall r, In r (map (fun r => pg_cells pt r (map pg_name (tpk ts0))) rows) -> List.length r = List.length (tpk ts0)) as L.
      { intros r Hr. apply in_map_iff in Hr as (r0 & <- & _). unfold pg_cells. now rewrite !map_length. }
      split.
      - revert L. generalize (map (fun r => pg_cells pt r (map pg_name (tpk ts0))) rows) as rs. intros rs L.
        induction rs as [| r rs IH]; constructor; [| apply IH; intros; apply L; simpl; auto].
        unfold row_read. unfold tfields. cbn [tpk tdf app]. specialize (L r (or_introl eq_refl)). clear - L Hin'.
        assert (forall fs (r : list value), List.length r = List.length fs ->
                  Forall2 (fun (fx : string * value) (v : value) => pg_read_cell (duplicate_focused f) t (fst fx) (snd fx) = Ret v) (combine fs r) r) as Q; [| now apply Q].
        clear r L. induction fs as [| x fs IH]; intros [| v r] L; try discriminate; simpl; constructor; auto.
        eapply focused_reads; eauto.
      - destruct (rows_back t (mkT [] (tpk ts0)) (OListed (map (fun r => pg_cells pt r (map pg_name (tpk ts0))) rows)) (map (fun r => pg_cells pt r (map pg_name (tpk ts0))) rows)) as (inp & tb & <- & I & K & _); auto.
        + unfold wf_tschema, tfields. cbn [tpk tdf app]. apply Hwf in A. unfold wf_tschema, tfields in A. now apply NoDup_app_l in A.
        + rewrite (I (f_defaults (duplicate_focused f))).
          assert (tb = OListed (map (fun r => pg_cells pt r (map pg_name (tpk ts0))) rows)) as ->; [| split; auto; now rewrite K].
          specialize (I []). clear - I L. unfold rows_in in I. cbn [tpk] in I.
          assert (init_one [] t (mkT [] (tpk ts0)) (TRows (map RSeq (map (fun r => pg_cells pt r (map pg_name (tpk ts0))) rows))) = Some (OListed (map (fun r => pg_cells pt r (map pg_name (tpk ts0))) rows))) as Q.
          2: rewrite Q in I; congruence.
          set (rs := map (fun r => pg_cells pt r (map pg_name (tpk ts0))) rows) in *. clearbody rs.
          unfold init_one. cbn [tpk].
          assert (good_rows (tdf (mkT [] (tpk ts0))) (map RSeq rs) = true) as ->.
          { apply good_rows_iff. intros x Hx. apply in_map_iff in Hx as (r & <- & Hr). simpl. now apply L. }
          assert (map_opt (row_factory [] t (mkT [] (tpk ts0))) (map RSeq rs) = Some rs) as ->; auto.
          clear I. induction rs as [| r rs IH]; simpl; auto. rewrite row_factory_seq by (apply L; simpl; auto). rewrite IH; auto. intros; apply L; simpl; auto. }
    assert (match keyed_tables (plain_schema f) with
            | [] => Ret []
            | _ => bindO (Pg.pg_create date_of float_of (duplicate_focused f) a db) (fun td =>
               find_duplicates pks
                 (fun t => match td t with
                           | OListed l => map (combine (tpk (ts_of (plain_schema f) t))) l
                           | OKeyed _ => []
                           end))
            end = find_duplicates pks (fun t => match adjust_params date_of float_of (duplicate_focused f) e t with
                           | OListed l => map (combine (tpk (ts_of (plain_schema f) t))) l
                           | OKeyed _ => []
                           end)) as Eq.
    { unfold pks. destruct (keyed_tables (plain_schema f)) eqn:K; [reflexivity |]. fold pg_create. rewrite He. reflexivity. }
    assert (match keyed_tables (plain_schema f) with
            | [] => Ret []
            | kt => bindO (Pg.pg_create date_of float_of (duplicate_focused f) a db) (fun td =>
               find_duplicates (map (fun tts => (fst tts, tpk (snd tts))) kt)
                 (fun t => match td t with
                           | OListed l => map (combine (tpk (ts_of (plain_schema f) t))) l
                           | OKeyed _ => []
                           end))
            end = match keyed_tables (plain_schema f) with
            | [] => Ret []
            | _ => bindO (Pg.pg_create date_of float_of (duplicate_focused f) a db) (fun td =>
               find_duplicates pks
                 (fun t => match td t with
                           | OListed l => map (combine (tpk (ts_of (plain_schema f) t))) l
                           | OKeyed _ => []
                           end))
            end) as Eq2.
    { unfold pks. destruct (keyed_tables (plain_schema f)); reflexivity. }
    rewrite Eq2, Eq. clear Eq Eq2. set (rowf := fun t : string => _).
    assert (forall t ts, In (t, ts) (plain_schema f) -> tpk ts <> [] -> Forall2 (key_in_row (tpk ts)) (rowf t) (stored_keys a db t ts)) as Hkeys.
    { intros t ts A B. unfold rowf. assert (adjust_params date_of float_of (duplicate_focused f) e t = e t) as ->.
      { unfold adjust_params. rewrite andb_false_r. reflexivity. }
      rewrite (Hsame t (mkT [] (tpk ts))) by (apply focused_In; eauto). rewrite (ts_of_In _ t ts) by auto.
      assert (forall k, In k (stored_keys a db t ts) -> List.length k = List.length (tpk ts)) as L.
      { intros k Hk. unfold stored_keys in Hk. destruct (dget String.eqb db t); [| contradiction]. apply in_map_iff in Hk as (r & <- & _). unfold pg_cells. now rewrite !map_length. }
      assert (NoDup (tpk ts)) as Nk. { apply Hwf in A. unfold wf_tschema, tfields in A. now apply NoDup_app_l in A. }
      revert L. generalize (stored_keys a db t ts) as ks. induction ks as [| k ks IH]; intros L; simpl; constructor; [| apply IH; intros; apply L; simpl; auto].
      specialize (L k (or_introl eq_refl)). pose proof (key_row (mkT (tpk ts) []) k) as Q. unfold wf_tschema, tfields in Q. cbn [tpk tdf] in Q. rewrite app_nil_r in Q.
      rewrite <- L, firstn_all in Q. apply Q; auto. }
    destruct (find_duplicates_total pks rowf) as (rep & Hr).
    { intros t flds H. apply Hpks in H as (ts & A & B & ->). eauto. }
    exists rep. split; [exact Hr |]. split.
    - intros t d Hin. destruct (find_duplicates_reports _ _ _ _ _ Hr Hin) as (A & B & C). split; auto. split; auto.
      apply in_map_iff in A as ([t1 flds] & E & A). cbn [fst] in E. subst t1. apply Hpks in A as (ts & X & Y & _). eauto.
    - intros t ts A B. eapply find_duplicates_counts; eauto. apply Hpks. eauto.
  Qed.
End Read.
