(** * Reading with generator tables compared with reading at once. *)
From Coq Require Import ZArith Bool List String Arith Lia.
From Verif Require Import PyVal PyDict PyDictFacts ListFacts TypeDict Data FindTypes FK Obj ObjFacts Factory FactoryFacts InfIO Params Names NamesFacts
  Utils Json ObjRows JsonFacts TripFacts Csv CsvFacts CsvRows CsvMore Xls Sql FileDb Lazy LazyFacts.
Import ListNotations.
Local Open Scope string_scope.
Local Open Scope list_scope.

Section Read.
  Variable date_of : value -> option Z.
  Variable float_of : value -> option value.
  Variable f : factory.
  Variable parses : value -> bool.
  Hypothesis Hinv : inv parses f.

  (** The rows of an object with generator tables, now, are those of [d]. *)
  Definition same_rows (w : world) (g : gobj) (d : obj) : Prop := forall t ts, In (t, ts) (plain_schema f) ->
    (if mem_str t (f_gens f) then exists s, g t = Lazy s else g t = Stored (d t)) /\ seen (f_defaults f) t ts (g t) w = Ret (d t).

  Lemma shows_same : forall w t ts g tb, shows f w t ts g tb ->
    (if mem_str t (f_gens f) then exists s, g = Lazy s else g = Stored tb) /\ seen (f_defaults f) t ts g w = Ret tb.
  Proof. intros w t ts g tb. unfold shows. destruct (mem_str t (f_gens f)); [auto |]. intros ->. split; reflexivity. Qed.

  (** The rows do not depend on anything but what [same] says is the same. *)
  Definition reads_only (same : world -> world -> Prop) (g : gobj) : Prop := forall t ts w1 w2, In (t, ts) (plain_schema f) -> same w1 w2 ->
    seen (f_defaults f) t ts (g t) w1 = seen (f_defaults f) t ts (g t) w2.

  (** ** csv *)

  Lemma csv_alike : forall headers w path t ts, In (t, ts) (plain_schema f) ->
    alike f w t ts (csv_input date_of float_of f headers (dget_or String.eqb (w_dirs w) path []) (t, ts)) (gen_csv_input date_of float_of f headers w path (t, ts)).
  Proof.
    intros headers w path t ts Hin. set (dir := dget_or String.eqb (w_dirs w) path []). unfold alike, csv_input, gen_csv_input, file_of. cbn [fst snd]. fold dir. split.
    - destruct (get_file_path (map fst dir) t) as [[name |] |]; cbn [bindO]; auto.
      destruct (find _ dir) as [e |]; cbn [option_map bindO]; auto. destruct (csv_rows date_of float_of f headers t ts (snd e)) as [[| r rs] |]; cbn [bindO]; eauto.
    - destruct (mem_str t (f_gens f)) eqn:Eg; [| reflexivity]. destruct (gens_plain f parses Hinv t ts Hin Eg) as [Hk _].
      destruct (get_file_path (map fst dir) t) as [[name |] |] eqn:Ep; cbn [bindO]; auto.
      assert (exists e, find (fun e : string * bool * csv_file => String.eqb (fst (fst e)) name && snd (fst e)) dir = Some e) as [e Ee].
      { unfold get_file_path in Ep. destruct (filter _ (map fst dir)) as [| x [| ? ?]] eqn:Ef; try discriminate. injection Ep as <-.
        assert (In x (filter (fun e => snd e && csv_match t (fst e)) (map fst dir))) as Hx by (rewrite Ef; now left).
        apply filter_In in Hx as [Hx Hs]. apply andb_true_iff in Hs as [Hs _]. apply in_map_iff in Hx as (e & <- & He).
        destruct (find _ dir) as [e' |] eqn:E; [eauto |]. exfalso. apply (find_none _ _ E) in He. cbn beta in He. rewrite String.eqb_refl, Hs in He. discriminate. }
      right; right. eexists. split; [reflexivity |]. unfold csv_source. fold dir. rewrite Ee. cbn [option_map bindO].
      destruct (csv_rows date_of float_of f headers t ts (snd e)) as [[| r rs] |]; cbn [bindO]; auto.
      left. unfold built. now rewrite Hk.
  Qed.

  (** The rows of the file, whatever the generator tables. *)
  Theorem csv_lazy : forall headers w path dir, dget String.eqb (w_dirs w) path = Some dir ->
    match csv_create date_of float_of f headers dir, gen_csv_create date_of float_of f headers w path with
    | Ret d, Ret g => same_rows w g d /\ reads_only (fun w1 w2 => dget String.eqb (w_dirs w1) path = dget String.eqb (w_dirs w2) path) g /\
        forall w' dir' d' t ts, dget String.eqb (w_dirs w') path = Some dir' -> map fst dir' = map fst dir ->
          csv_create date_of float_of f headers dir' = Ret d' -> In (t, ts) (plain_schema f) -> mem_str t (f_gens f) = true ->
          seen (f_defaults f) t ts (g t) w' = Ret (d' t)
    | Raise, Raise => True
    | _, _ => False
    end.
  Proof.
    intros headers w path dir Hdir.
    assert (forall w dir, dget String.eqb (w_dirs w) path = Some dir -> dget_or String.eqb (w_dirs w) path [] = dir) as Hor by (intros w0 d0 E; unfold dget_or; now rewrite E).
    pose proof (fun w0 => read_alike date_of float_of f w0 parses Hinv _ _ (csv_alike headers w0 path)) as R.
    pose proof (R w) as Rw. rewrite (Hor w dir Hdir) in Rw. unfold csv_create at 1. unfold gen_csv_create. rewrite Hdir.
    destruct (bindO (mapO (csv_input date_of float_of f headers dir) (plain_schema f)) _) as [d |];
      destruct (bindO (mapO (gen_csv_input date_of float_of f headers w path) (plain_schema f)) _) as [g |]; try exact Rw. split; [| split].
    - intros t ts Hin. apply shows_same. now apply Rw.
    - intros t ts w1 w2 Hin E. destruct (Rw t ts Hin) as [S G]. unfold shows in S. destruct (mem_str t (f_gens f)) eqn:Hg; [| rewrite S; reflexivity].
      specialize (G eq_refl). unfold gen_csv_input in G. cbn [fst snd] in G. rewrite Hg in G.
      destruct (get_file_path _ t) as [[name |] |]; cbn [bindO] in G; try (now rewrite !G). rewrite G. unfold seen, yields, csv_source, dget_or. now rewrite E.
    - intros w' dir' d' t ts Hd' Hn Hc Hin Hg. destruct (Rw t ts Hin) as [_ G]. specialize (G Hg). pose proof (R w') as R'. rewrite (Hor w' dir' Hd') in R'.
      unfold csv_create in Hc. rewrite Hc in R'.
      destruct (bindO (mapO (gen_csv_input date_of float_of f headers w' path) (plain_schema f)) _) as [g' |] in R'; [| contradiction].
      destruct (R' t ts Hin) as [S' G']. specialize (G' Hg). apply shows_same in S' as [_ S'].
      assert (gen_csv_input date_of float_of f headers w' path (t, ts) = gen_csv_input date_of float_of f headers w path (t, ts)) as E.
      { unfold gen_csv_input. cbn [fst snd]. rewrite Hg. now rewrite (Hor w' dir' Hd'), (Hor w dir Hdir), Hn. }
      rewrite E in G'. destruct (gen_csv_input date_of float_of f headers w path (t, ts)) as [[| [u [i | n | s]] [| y l]] |]; try (rewrite G; rewrite G' in S'; congruence).
  Qed.

  (** Which file a generator table reads. *)
  Theorem csv_which : forall headers w path dir g t ts name, dget String.eqb (w_dirs w) path = Some dir ->
    gen_csv_create date_of float_of f headers w path = Ret g -> In (t, ts) (plain_schema f) -> mem_str t (f_gens f) = true ->
    get_file_path (map fst dir) t = Ret (Some name) -> g t = Lazy (csv_source date_of float_of f headers path name t ts).
  Proof.
    intros headers w path dir g t ts name Hdir Hc Hin Hg Hp. pose proof (read_alike date_of float_of f w parses Hinv _ _ (csv_alike headers w path)) as R.
    unfold gen_csv_create in Hc. rewrite Hdir in Hc. rewrite Hc in R. destruct (bindO (mapO _ (plain_schema f)) _) as [d |] in R; [| contradiction].
    destruct (R t ts Hin) as [_ G]. specialize (G Hg). unfold gen_csv_input, dget_or in G. cbn [fst snd] in G. rewrite Hg, Hdir, Hp in G. exact G.
  Qed.

  (** ** SQLite and Access *)

  Section Db.
    Variable read : factory -> string -> string -> value -> outcome value.

    Definition db_h (db : filedb) (names : list (string * string)) (tts : string * tschema) : outcome (list (string * tablein)) :=
      match dget String.eqb names (fst tts) with
      | None => Ret []
      | Some n =>
          match find_table db n with
          | None => Raise
          | Some dt => bindO (table_arg (read f) (fst tts) (snd tts) (db_select dt (tfields (snd tts)))) (fun i => Ret [(fst tts, i)])
          end
      end.
    Definition db_gh (db : filedb) (path : string) (names : list (string * string)) (tts : string * tschema) : outcome (list (string * ginput)) :=
      match dget String.eqb names (fst tts) with
      | None => Ret []
      | Some n =>
          if mem_str (fst tts) (f_gens f) then Ret [(fst tts, GFun (db_source read f path n (fst tts) (snd tts)))]
          else match find_table db n with
               | None => Raise
               | Some dt => bindO (table_arg (read f) (fst tts) (snd tts) (db_select dt (tfields (snd tts)))) (fun i => Ret (at_once [(fst tts, i)]))
               end
      end.

    Lemma db_alike : forall w path db names, dget String.eqb (w_dbs w) path = Some db -> check_fields f db = Ret names ->
      forall t ts, In (t, ts) (plain_schema f) -> alike f w t ts (db_h db names (t, ts)) (db_gh db path names (t, ts)).
    Proof.
      intros w path db names Hdb Hc t ts Hin. unfold alike, db_h, db_gh. cbn [fst snd]. split.
      - destruct (dget String.eqb names t); auto. destruct (find_table db s); auto. destruct (table_arg (read f) t ts _); cbn [bindO]; eauto.
      - destruct (mem_str t (f_gens f)) eqn:Eg.
        + destruct (gens_plain f parses Hinv t ts Hin Eg) as [Hk _]. destruct (dget String.eqb names t) as [n |] eqn:En; auto.
          right; right. eexists. split; [reflexivity |]. unfold db_source. rewrite Hdb. destruct (find_table db n) as [dt |] eqn:Ed; [| reflexivity].
          assert (forallb (has_col dt) (tdf ts) = true) as ->.
          { unfold check_fields in Hc. destruct (names_found db (map fst (plain_schema f))) as [ns |]; [| discriminate]. cbn [bindO] in Hc.
            destruct (forallb _ ns) eqn:Ea; [| discriminate]. injection Hc as ->. rewrite forallb_forall in Ea. apply dget_In in En as (k & Ek & Hn).
            apply String.eqb_eq in Ek as ->. specialize (Ea _ Hn). cbn [fst snd] in Ea. rewrite Ed in Ea.
            assert (ts_of (plain_schema f) t = ts) as Ets.
            { unfold ts_of. destruct (plain_wf f (inv_decl _ _ Hinv)) as [Hn' _]. apply (str_get _ _ _ Hn') in Hin. unfold dget_or; rewrite Hin; reflexivity. }
            rewrite Ets in Ea. unfold tfields in Ea. now rewrite Hk in Ea. }
          unfold table_arg, tfields. rewrite Hk. cbn [app].
          destruct (mapO _ (db_select dt (tdf ts))); cbn [bindO]; auto.
        + destruct (dget String.eqb names t); auto. destruct (find_table db s); auto. destruct (table_arg (read f) t ts _); reflexivity.
    Qed.

    Lemma db_names_same : forall db db' names names', map fst db' = map fst db -> check_fields f db = Ret names -> check_fields f db' = Ret names' -> names' = names.
    Proof.
      intros db db' names names' E H H'. unfold check_fields, names_found in *. rewrite E in H'.
      destruct (bindO (mapO _ (map fst (plain_schema f))) _) as [ns |]; [| discriminate]. cbn [bindO] in *.
      destruct (forallb _ ns) in H; [| discriminate]. destruct (forallb _ ns) in H'; [| discriminate]. congruence.
    Qed.

    Theorem db_lazy : forall w path db, dget String.eqb (w_dbs w) path = Some db ->
      match read_file date_of float_of read f db, gen_db_create date_of float_of read f w path with
      | Ret d, Ret g => same_rows w g d /\ reads_only (fun w1 w2 => dget String.eqb (w_dbs w1) path = dget String.eqb (w_dbs w2) path) g /\
          forall w' db' d' t ts, dget String.eqb (w_dbs w') path = Some db' -> map fst db' = map fst db ->
            read_file date_of float_of read f db' = Ret d' -> In (t, ts) (plain_schema f) -> mem_str t (f_gens f) = true ->
            seen (f_defaults f) t ts (g t) w' = Ret (d' t)
      | Raise, Raise => True
      | _, _ => False
      end.
    Proof.
      intros w path db Hdb. unfold read_file at 1. unfold gen_db_create. rewrite Hdb. destruct (check_fields f db) as [names |] eqn:Ec; [| exact I]. cbn [bindO].
      pose proof (read_alike date_of float_of f w parses Hinv _ _ (db_alike w path db names Hdb Ec)) as R. unfold db_h in R at 1. unfold db_gh in R at 1.
      destruct (bindO (mapO _ (plain_schema f)) _) as [d |];
        destruct (bindO (mapO _ (plain_schema f)) (gen_finish date_of float_of f w)) as [g |]; try exact R. split; [| split].
      - intros t ts Hin. apply shows_same. now apply R.
      - intros t ts w1 w2 Hin E. destruct (R t ts Hin) as [S G]. unfold shows in S. destruct (mem_str t (f_gens f)) eqn:Hg; [| rewrite S; reflexivity].
        specialize (G eq_refl). unfold db_gh in G. cbn [fst snd] in G. rewrite Hg in G.
        destruct (dget String.eqb names t) as [n |]; [| now rewrite !G]. rewrite G. unfold seen, yields, db_source. now rewrite E.
      - intros w' db' d' t ts Hd' Hn Hc Hin Hg. destruct (R t ts Hin) as [_ G]. specialize (G Hg).
        unfold read_file in Hc. destruct (check_fields f db') as [names' |] eqn:Ec'; [| discriminate]. cbn [bindO] in Hc.
        assert (names' = names) as -> by exact (db_names_same db db' names names' Hn Ec Ec').
        pose proof (read_alike date_of float_of f w' parses Hinv _ _ (db_alike w' path db' names Hd' Ec')) as R'. unfold db_h in R' at 1. rewrite Hc in R'.
        destruct (bindO (mapO _ (plain_schema f)) (gen_finish date_of float_of f w')) as [g' |] in R'; [| contradiction].
        destruct (R' t ts Hin) as [S' G']. specialize (G' Hg). apply shows_same in S' as [_ S'].
        unfold db_gh in G, G'. cbn [fst snd] in G, G'. rewrite Hg in G, G'.
        destruct (dget String.eqb names t) as [n |]; [rewrite G, <- G'; exact S' |]. rewrite G. rewrite G' in S'. congruence.
    Qed.

    (** Which table a generator table reads. *)
    Theorem db_which : forall w path db names g t ts n, dget String.eqb (w_dbs w) path = Some db -> check_fields f db = Ret names ->
      gen_db_create date_of float_of read f w path = Ret g -> In (t, ts) (plain_schema f) -> mem_str t (f_gens f) = true ->
      dget String.eqb names t = Some n -> g t = Lazy (db_source read f path n t ts).
    Proof.
      intros w path db names g t ts n Hdb Ec Hc Hin Hg Hnm. pose proof (read_alike date_of float_of f w parses Hinv _ _ (db_alike w path db names Hdb Ec)) as R.
      unfold gen_db_create in Hc. rewrite Hdb, Ec in Hc. cbn [bindO] in Hc.
      change (bindO (mapO (db_gh db path names) (plain_schema f)) (gen_finish date_of float_of f w) = Ret g) in Hc. rewrite Hc in R.
      match type of R with match ?X with _ => _ end => destruct X as [d |] end; [| exact (False_ind _ R)].
      destruct (R t ts Hin) as [_ G]. specialize (G Hg). unfold db_gh in G. cbn [fst snd] in G. rewrite Hg, Hnm in G. exact G.
    Qed.
  End Db.

  (** ** Excel *)

  Lemma xls_alike : forall headers inf offsets w path b, dget String.eqb (w_books w) path = Some b -> forall t ts, In (t, ts) (plain_schema f) ->
    alike f w t ts (xls_input date_of float_of f b headers inf offsets (t, ts))
      ((fun tts : string * tschema => if mem_str (fst tts) (f_gens f) then Ret [(fst tts, GFun (xls_source date_of float_of f headers inf (offsets (fst tts)) path (fst tts) (snd tts)))]
       else bindO (xls_input date_of float_of f b headers inf offsets tts) (fun l => Ret (at_once l))) (t, ts)).
  Proof.
    intros headers inf offsets w path b Hb t ts Hin. unfold alike. cbn [fst snd]. split.
    - unfold xls_input. cbn [fst snd]. destruct (sheet_of b t) as [[s |] |]; cbn [bindO]; auto. destruct (xls_rows _ _ _ _ _ _ _ _ _ s); cbn [bindO]; eauto.
    - destruct (mem_str t (f_gens f)) eqn:Eg; [| reflexivity]. destruct (gens_plain f parses Hinv t ts Hin Eg) as [Hk _].
      right; right. eexists. split; [reflexivity |]. unfold xls_source, xls_input. cbn [fst snd]. rewrite Hb.
      destruct (sheet_of b t) as [[s |] |]; cbn [bindO]; auto. destruct (xls_rows _ _ _ _ _ _ _ _ _ s); cbn [bindO]; auto.
      left. unfold xls_built. now rewrite Hk.
  Qed.

  Theorem xls_lazy : forall headers offsets w path b, dget String.eqb (w_books w) path = Some b ->
    match xls_create date_of float_of f b headers false offsets, gen_xls_create date_of float_of f headers false offsets w path with
    | Ret d, Ret g => same_rows w g d /\ reads_only (fun w1 w2 => dget String.eqb (w_books w1) path = dget String.eqb (w_books w2) path) g /\
        forall w' b' d' t ts, dget String.eqb (w_books w') path = Some b' ->
          xls_create date_of float_of f b' headers false offsets = Ret d' -> In (t, ts) (plain_schema f) -> mem_str t (f_gens f) = true ->
          seen (f_defaults f) t ts (g t) w' = Ret (d' t)
    | Raise, Raise => True
    | _, _ => False
    end.
  Proof.
    intros headers offsets w path b Hb. unfold xls_create at 1. unfold gen_xls_create. rewrite Hb. cbn [andb negb]. rewrite andb_true_r.
    destruct (sheets_differ (map fst (f_decl f))) eqn:Es; [| exact I].
    pose proof (read_alike date_of float_of f w parses Hinv _ _ (xls_alike headers false offsets w path b Hb)) as R.
    destruct (bindO (mapO (xls_input date_of float_of f b headers false offsets) (plain_schema f)) _) as [d |];
      destruct (bindO (mapO _ (plain_schema f)) (gen_finish date_of float_of f w)) as [g |]; try exact R. split; [| split].
    - intros t ts Hin. apply shows_same. now apply R.
    - intros t ts w1 w2 Hin E. destruct (R t ts Hin) as [S G]. unfold shows in S. destruct (mem_str t (f_gens f)) eqn:Hg; [| rewrite S; reflexivity].
      specialize (G eq_refl). cbn [fst snd] in G. rewrite Hg in G. rewrite G. unfold seen, yields, xls_source. now rewrite E.
    - intros w' b' d' t ts Hb' Hc Hin Hg. destruct (R t ts Hin) as [_ G]. specialize (G Hg). unfold xls_create in Hc. rewrite Es in Hc.
      pose proof (read_alike date_of float_of f w' parses Hinv _ _ (xls_alike headers false offsets w' path b' Hb')) as R'. rewrite Hc in R'.
      destruct (bindO (mapO _ (plain_schema f)) (gen_finish date_of float_of f w')) as [g' |] in R'; [| contradiction].
      destruct (R' t ts Hin) as [S' G']. specialize (G' Hg). apply shows_same in S' as [_ S']. cbn [fst snd] in G, G'. rewrite Hg in G, G'.
      rewrite G, <- G'. exact S'.
  Qed.

  (** A generator table looks for the sheet each time it is called. *)
  Theorem xls_which : forall headers inf offsets w path g t ts, gen_xls_create date_of float_of f headers inf offsets w path = Ret g ->
    In (t, ts) (plain_schema f) -> mem_str t (f_gens f) = true ->
    g t = Lazy (xls_source date_of float_of f headers inf (offsets t) path t ts) /\ sheets_differ (map fst (f_decl f)) = true.
  Proof.
    intros headers inf offsets w path g t ts Hc Hin Hg. unfold gen_xls_create in Hc. destruct (dget String.eqb (w_books w) path) as [b |] eqn:Hb; [| discriminate].
    destruct (sheets_differ (map fst (f_decl f))) eqn:Es; [| discriminate]. destruct (negb _) in Hc; [| discriminate]. cbn [andb] in Hc. split; [| reflexivity].
    pose proof (read_alike date_of float_of f w parses Hinv _ _ (xls_alike headers inf offsets w path b Hb)) as R. cbv beta in R. rewrite Hc in R.
    destruct (bindO (mapO _ (plain_schema f)) _) as [d |] in R; [| contradiction].
    destruct (R t ts Hin) as [_ G]. specialize (G Hg). cbn [fst snd] in G. rewrite Hg in G. exact G.
  Qed.

  Theorem xls_refused : forall headers offsets w path, f_gens f <> [] -> gen_xls_create date_of float_of f headers true offsets w path = Raise.
  Proof.
    intros headers offsets w path H. unfold gen_xls_create. destruct (dget String.eqb (w_books w) path); [| reflexivity].
    destruct (f_gens f); [contradiction |]. cbn [andb negb]. now rewrite andb_false_r.
  Qed.
End Read.
