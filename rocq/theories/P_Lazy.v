(** * Property theorems: C151-C156 (generator tables, and what writers do to the files).

    [w]: the files and lists at one moment; [seen … g w]: the table as anybody sees it who iterates over it
    in that moment.  A write returns whether the call returned, and the world afterwards. *)
From Coq Require Import ZArith Bool List String Arith Permutation.
From Verif Require Import PyVal PyDict PyStr PyDictFacts TypeDict Data FindTypes FindTypesFacts FK FKFacts WfCheck Obj ObjFacts ObjMore Factory FactoryFacts InfIO Params Names NamesFacts
  Utils Json ObjRows Csv CsvFacts CsvRows CsvMore Xls Sql FileDb FileDbFacts InfWitness JsonWitness CsvWitness PgWitness FileDbWitness
  JsonDocMore AmplTo Lazy LazyFacts LazyRead LazyWrite LazyMore LazyWitness.
Import ListNotations.
Local Open Scope string_scope.
Local Open Scope list_scope.

(** ** C151 Reading *)

(** csv: reading with generator tables goes well exactly when reading without would; the tables show the same rows, and
    later those of the file as it is then. *)
Theorem C151_csv : forall parses date_of float_of f headers w path dir, reachable parses f -> dget String.eqb (w_dirs w) path = Some dir ->
  match csv_create date_of float_of f headers dir, gen_csv_create date_of float_of f headers w path with
  | Ret d, Ret g => same_rows f w g d /\
      forall w' dir' d' t ts, dget String.eqb (w_dirs w') path = Some dir' -> map fst dir' = map fst dir ->
        csv_create date_of float_of f headers dir' = Ret d' -> In (t, ts) (plain_schema f) -> In t (f_gens f) ->
        seen (f_defaults f) t ts (g t) w' = Ret (d' t)
  | Raise, Raise => True
  | _, _ => False
  end.
Proof.
  intros parses date_of float_of f headers w path dir Hr Hd. apply reachable_inv in Hr. pose proof (csv_lazy date_of float_of f parses Hr headers w path dir Hd) as H.
  destruct (csv_create _ _ _ _ dir); destruct (gen_csv_create _ _ _ _ w path); auto. destruct H as (A & _ & B). split; auto.
  intros w' dir' d' t ts H1 H2 H3 H4 H5. eapply B; eauto. now apply mem_str_iff.
Qed.
Print Assumptions C151_csv.

Theorem C151_sqlite : forall parses date_of float_of f w path db, reachable parses f -> dget String.eqb (w_dbs w) path = Some db ->
  match sql_read_file date_of float_of f db, gen_db_create date_of float_of (read_data_cell date_of float_of) f w path with
  | Ret d, Ret g => same_rows f w g d /\
      forall w' db' d' t ts, dget String.eqb (w_dbs w') path = Some db' -> map fst db' = map fst db ->
        sql_read_file date_of float_of f db' = Ret d' -> In (t, ts) (plain_schema f) -> In t (f_gens f) ->
        seen (f_defaults f) t ts (g t) w' = Ret (d' t)
  | Raise, Raise => True
  | _, _ => False
  end.
Proof.
  intros parses date_of float_of f w path db Hr Hd. apply reachable_inv in Hr. unfold sql_read_file.
  pose proof (db_lazy date_of float_of f parses Hr (read_data_cell date_of float_of) w path db Hd) as H.
  destruct (read_file _ _ _ _ db); destruct (gen_db_create _ _ _ _ w path); auto. destruct H as (A & _ & B). split; auto.
  intros w' db' d' t ts H1 H2 H3 H4 H5. eapply B; eauto. now apply mem_str_iff.
Qed.
Print Assumptions C151_sqlite.

Theorem C151_access : forall parses date_of float_of f w path db, reachable parses f -> dget String.eqb (w_dbs w) path = Some db ->
  match mdb_read_file date_of float_of f db, gen_db_create date_of float_of (general_read date_of float_of) f w path with
  | Ret d, Ret g => same_rows f w g d /\
      forall w' db' d' t ts, dget String.eqb (w_dbs w') path = Some db' -> map fst db' = map fst db ->
        mdb_read_file date_of float_of f db' = Ret d' -> In (t, ts) (plain_schema f) -> In t (f_gens f) ->
        seen (f_defaults f) t ts (g t) w' = Ret (d' t)
  | Raise, Raise => True
  | _, _ => False
  end.
Proof.
  intros parses date_of float_of f w path db Hr Hd. apply reachable_inv in Hr. unfold mdb_read_file.
  pose proof (db_lazy date_of float_of f parses Hr (general_read date_of float_of) w path db Hd) as H.
  destruct (read_file _ _ _ _ db); destruct (gen_db_create _ _ _ _ w path); auto. destruct H as (A & _ & B). split; auto.
  intros w' db' d' t ts H1 H2 H3 H4 H5. eapply B; eauto. now apply mem_str_iff.
Qed.
Print Assumptions C151_access.

(** Excel, with treat_inf_as_infinity=False. *)
Theorem C151_excel : forall parses date_of float_of f headers offsets w path b, reachable parses f -> dget String.eqb (w_books w) path = Some b ->
  match xls_create date_of float_of f b headers false offsets, gen_xls_create date_of float_of f headers false offsets w path with
  | Ret d, Ret g => same_rows f w g d /\
      forall w' b' d' t ts, dget String.eqb (w_books w') path = Some b' ->
        xls_create date_of float_of f b' headers false offsets = Ret d' -> In (t, ts) (plain_schema f) -> In t (f_gens f) ->
        seen (f_defaults f) t ts (g t) w' = Ret (d' t)
  | Raise, Raise => True
  | _, _ => False
  end.
Proof.
  intros parses date_of float_of f headers offsets w path b Hr Hb. apply reachable_inv in Hr.
  pose proof (xls_lazy date_of float_of f parses Hr headers offsets w path b Hb) as H.
  destruct (xls_create _ _ _ b _ _ _); destruct (gen_xls_create _ _ _ _ _ _ w path); auto. destruct H as (A & _ & B). split; auto.
  intros w' b' d' t ts H1 H2 H3 H4. eapply B; eauto. now apply mem_str_iff.
Qed.
Print Assumptions C151_excel.

(** The default, treat_inf_as_infinity=True, is refused for every factory with generator tables. *)
Theorem C151_excel_refused : forall date_of float_of f headers offsets w path, f_gens f <> [] ->
  gen_xls_create date_of float_of f headers true offsets w path = Raise.
Proof. exact xls_refused. Qed.
Print Assumptions C151_excel_refused.

(** A path with nothing there is refused, and a generator table read from a path shows nothing but raises once that is gone. *)
Theorem C151_missing : forall date_of float_of read f headers inf offsets w path,
  (dget String.eqb (w_dirs w) path = None -> gen_csv_create date_of float_of f headers w path = Raise) /\
  (dget String.eqb (w_dbs w) path = None -> gen_db_create date_of float_of read f w path = Raise) /\
  (dget String.eqb (w_books w) path = None -> gen_xls_create date_of float_of f headers inf offsets w path = Raise) /\
  forall name t ts,
    (dget String.eqb (w_dirs w) path = None -> csv_source date_of float_of f headers path name t ts w = Raise) /\
    (dget String.eqb (w_dbs w) path = None -> db_source read f path name t ts w = Raise).
Proof.
  intros. unfold gen_csv_create, gen_db_create, gen_xls_create, csv_source, db_source, dget_or.
  repeat split; intros H; rewrite H; reflexivity.
Qed.
Print Assumptions C151_missing.

Example C151_ex : reachable no_parse wl_fac /\ In "log" (f_gens wl_fac) /\ dget String.eqb (w_dirs wl_w) "data" = Some wl_dir /\
  gen_csv_create wi_date wc_float wl_fac true wl_w "data" = Ret wl_csv /\ wl_log wl_csv wl_w = Ret (wl_obj "log") /\
  wl_log wl_csv (set_dir wl_w "data" (map (fun e : string * bool * csv_file => (fst e, firstn 2 (snd e))) wl_dir)) = Ret (OListed [[VStr "start"; int 1]]) /\
  wl_log wl_sql wl_w = Ret (wl_obj "log") /\ wl_log wl_mdb wl_w = Ret (wl_obj "log") /\ wl_log wl_xls wl_w = Ret (wl_obj "log").
Proof.
  split; [exact wl_reach |]. split; [now left |]. split; [reflexivity |]. split; [exact wl_csv_made |]. split; [exact wl_csv_rows |].
  split; [vm_compute; reflexivity |]. split; [exact wl_sql_rows |]. split; [exact wl_mdb_rows | exact (proj1 wl_xls_rows)].
Qed.

(** ** C152 Writing an object back to where it was read from *)

(** csv: the call returns and the rows of the generator table are gone. *)
Theorem C152_csv_refuted : exists date_of float_of show_num show_date f w path g, reachable no_parse f /\
  gen_csv_create date_of float_of f true w path = Ret g /\ seen (f_defaults f) "log" (mkT [] ["What"; "Amount"]) (g "log") w = Ret (wl_obj "log") /\
  exists w', gen_csv_save date_of show_num show_date f true false true path g w = (true, w') /\
    dget String.eqb (w_dirs w') path = Some [("items.csv", true, [["Name"; "Cost"]; ["a"; "3"]]); ("log.csv", true, [["What"; "Amount"]]); ("notes.txt", true, [["?"]])].
Proof.
  exists wi_date, wc_float, wc_num, wc_show, wl_fac, wl_w, "data", wl_csv. split; [exact wl_reach |]. split; [exact wl_csv_made |]. split; [exact wl_csv_rows |].
  eexists. split; [vm_compute; reflexivity |]. vm_compute. reflexivity.
Qed.
Print Assumptions C152_csv_refuted.

(** In general: a generator table read from the file that it is written to loses all its rows whenever the call returns. *)
Theorem C152_csv_lost : forall parses date_of float_of show_num show_date f headers pretty allow w path dir g t ts w', reachable parses f ->
  dget String.eqb (w_dirs w) path = Some dir -> gen_csv_create date_of float_of f headers w path = Ret g ->
  In (t, ts) (plain_schema f) -> In t (f_gens f) -> let name := csv_name pretty (map fst (f_decl f)) t in
  get_file_path (map fst dir) t = Ret (Some name) ->
  gen_csv_save date_of show_num show_date f headers pretty allow path g w = (true, w') ->
  exists dir', dget String.eqb (w_dirs w') path = Some dir' /\ In (name, true, if headers then [tfields ts] else []) dir' /\
    forall e, In e dir' -> fst (fst e) = name -> e = (name, true, if headers then [tfields ts] else []).
Proof.
  intros parses date_of float_of show_num show_date f headers pretty allow w path dir g t ts w' Hr Hd Hc Hin Hg name Hp Hs.
  apply reachable_inv in Hr. apply mem_str_iff in Hg. pose proof (csv_which date_of float_of f parses Hr headers w path dir g t ts name Hd Hc Hin Hg Hp) as Eg.
  unfold gen_csv_save in Hs. destruct (pull f g w); [| discriminate]. destruct (negb allow && _); [discriminate |].
  pose proof (csv_lost date_of float_of show_num show_date f headers pretty path g t ts (plain_schema f) (set_dir w path (dget_or String.eqb (w_dirs w) path []))) as L.
  assert (NoDup (map (fun tts : string * tschema => csv_name pretty (map fst (f_decl f)) (fst tts)) (plain_schema f))) as N.
  { pose proof (decl_ok_legal _ (inv_decl _ _ Hr)) as Hl. destruct (plain_wf f (inv_decl _ _ Hr)) as [Hn _]. rewrite <- (map_map fst (csv_name pretty (map fst (f_decl f)))).
    apply map_inj_NoDup; [exact Hn |]. intros a b Ha Hb E. apply in_map_iff in Ha as ([a' ta] & <- & Ha), Hb as ([b' tb] & <- & Hb).
    apply plain_in_decl in Ha, Hb. exact (csv_name_inj pretty _ _ _ Hl Ha Hb E). }
  specialize (L N Hin Eg). rewrite Hs in L. cbn [fst snd] in L. specialize (L eq_refl). fold name in L. unfold dget_or in L.
  destruct (dget String.eqb (w_dirs w') path) as [dir' |] eqn:Ed'.
  - exists dir'. split; [reflexivity |]. exact L.
  - exfalso. destruct L as [[] _].
Qed.
Print Assumptions C152_csv_lost.

(** Into another directory: as the object with ordinary tables. *)
Theorem C152_csv_elsewhere : forall parses date_of float_of show_num show_date f headers headers' pretty allow w path path' dir g d, reachable parses f ->
  dget String.eqb (w_dirs w) path = Some dir -> gen_csv_create date_of float_of f headers w path = Ret g -> csv_create date_of float_of f headers dir = Ret d ->
  path' <> path ->
  match csv_save date_of show_num show_date f headers' pretty allow (dget_or String.eqb (w_dirs w) path' []) d with
  | Ret dir' => gen_csv_save date_of show_num show_date f headers' pretty allow path' g w = (true, set_dir w path' dir')
  | Raise => fst (gen_csv_save date_of show_num show_date f headers' pretty allow path' g w) = false
  end.
Proof.
  intros parses date_of float_of show_num show_date f headers headers' pretty allow w path path' dir g d Hr Hd Hc Hcd Hne. apply reachable_inv in Hr.
  pose proof (csv_lazy date_of float_of f parses Hr headers w path dir Hd) as H. rewrite Hc, Hcd in H. destruct H as (A & B & _).
  destruct (plain_wf f (inv_decl _ _ Hr)) as [Hn _]. apply csv_elsewhere; [exact Hn | |].
  - intros t ts dir0 Hin. rewrite (B t ts _ w Hin); [now apply A |]. now apply dir_other.
  - intros t ts Hin. now apply A.
Qed.
Print Assumptions C152_csv_elsewhere.

(** SQLite, the same file or another: as the object with ordinary tables. *)
Theorem C152_sqlite : forall parses store key_free date_of float_of sql_default f allow w path path' db g d, reachable parses f ->
  dget String.eqb (w_dbs w) path = Some db -> gen_db_create date_of float_of (read_data_cell date_of float_of) f w path = Ret g ->
  sql_read_file date_of float_of f db = Ret d ->
  gen_sql_write date_of store key_free sql_default f allow path' g w =
    match sql_write_file store key_free date_of sql_default f allow d (dget String.eqb (w_dbs w) path') with
    | (ok, Some db') => (ok, set_db w path' db')
    | (ok, None) => (ok, w)
    end.
Proof.
  intros parses store key_free date_of float_of sql_default f allow w path path' db g d Hr Hd Hc Hcd. apply reachable_inv in Hr.
  pose proof (db_lazy date_of float_of f parses Hr (read_data_cell date_of float_of) w path db Hd) as H. unfold sql_read_file in Hcd. rewrite Hc, Hcd in H. destruct H as (A & _).
  destruct (plain_wf f (inv_decl _ _ Hr)) as [Hn _]. apply sql_same; [exact Hn |]. intros t ts Hin. now apply A.
Qed.
Print Assumptions C152_sqlite.

(** Access: the rows are deleted, and that is committed, before they are read. *)
Theorem C152_access_refuted : exists store key_free date_of float_of bare f order w path g, reachable no_parse f /\
  gen_db_create date_of float_of (general_read date_of float_of) f w path = Ret g /\
  seen (f_defaults f) "log" (mkT [] ["What"; "Amount"]) (g "log") w = Ret (wl_obj "log") /\
  exists w' db dt, gen_mdb_write date_of store key_free bare f true order path g w = (true, w') /\
    dget String.eqb (w_dbs w') path = Some db /\ find_table db "log" = Some dt /\ dt_rows dt = [].
Proof.
  exists fw_store, fw_free, wi_date, wc_float, fw_bare, wl_fac, ["items"; "log"], wl_w, "data.db", wl_mdb. split; [exact wl_reach |]. split; [exact wl_mdb_made |].
  split; [exact wl_mdb_rows |]. eexists. eexists. eexists. split; [vm_compute; reflexivity |]. split; [vm_compute; reflexivity |]. split; vm_compute; reflexivity.
Qed.
Print Assumptions C152_access_refuted.

Theorem C152_access_lost : forall parses store key_free date_of float_of bare f order w path g t ts w', reachable parses f ->
  Permutation order (map fst (plain_schema f)) -> gen_db_create date_of float_of (general_read date_of float_of) f w path = Ret g ->
  In (t, ts) (plain_schema f) -> In t (f_gens f) ->
  gen_mdb_write date_of store key_free bare f true order path g w = (true, w') ->
  exists db dt, dget String.eqb (w_dbs w') path = Some db /\ find_table db t = Some dt /\ dt_rows dt = [].
Proof.
  intros parses store key_free date_of float_of bare f order w path g t ts w' Hr Hp Hc Hin Hg Hs. apply reachable_inv in Hr. apply mem_str_iff in Hg.
  unfold gen_mdb_write in Hs. destruct (pull f g w); [| discriminate]. destruct (dget String.eqb (w_dbs w) path) as [db |] eqn:Hd; [| discriminate].
  destruct (check_fields f db) as [names |] eqn:Ec; [| discriminate].
  destruct (gen_mdb_tables date_of store key_free bare f true names path g order w (db, db)) as [ok st'] eqn:Et. destruct ok; [| discriminate]. injection Hs as <-.
  assert (In t order) as Ho by (eapply Permutation_in; [apply Permutation_sym; exact Hp | now apply (in_map fst) in Hin]).
  pose proof (tables_named _ _ _ _ _ _ _ _ _ _ _ _ _ Et t Ho) as Hnm.
  pose proof (db_which date_of float_of f parses Hr _ w path db names g t ts t Hd Ec Hc Hin Hg Hnm) as Eg.
  assert (ts_of (plain_schema f) t = ts) as Ets.
  { unfold ts_of, dget_or. destruct (plain_wf f (inv_decl _ _ Hr)) as [Hn' _]. apply (str_get _ _ _ Hn') in Hin. now rewrite Hin. }
  rewrite <- Ets in Eg.
  assert (NoDup (map lower order)) as N.
  { eapply Permutation_NoDup; [apply Permutation_map; apply Permutation_sym; exact Hp |]. apply (plain_legal f (inv_decl _ _ Hr)). }
  destruct (mdb_lost store key_free date_of bare f _ names path g t order w (db, db) st' N Ho Eg Et) as (dt & A & B).
  exists (snd st'), dt. split; [| auto]. unfold set_db. cbn [w_dbs]. apply dget_dset_same. apply String.eqb_refl.
Qed.
Print Assumptions C152_access_lost.

(** .xlsx: the call raises and the file is gone. *)
Theorem C152_xlsx_gone : forall parses date_of float_of show_date saved f headers inf offsets pretty w path g d t ts, reachable parses f ->
  NoDup (map fst (w_books w)) -> gen_xls_create date_of float_of f headers inf offsets w path = Ret g -> In (t, ts) (plain_schema f) -> In t (f_gens f) ->
  same_rows f w g d ->
  exists w', gen_xls_write date_of show_date saved f None pretty true path g w = (false, w') /\ dget String.eqb (w_books w') path = None.
Proof.
  intros parses date_of float_of show_date saved f headers inf offsets pretty w path g d t ts Hr Hn Hc Hin Hg Hsame. apply reachable_inv in Hr. apply mem_str_iff in Hg.
  destruct (xls_which date_of float_of f parses Hr headers inf offsets w path g t ts Hc Hin Hg) as [Eg Es].
  assert (dget String.eqb (w_books (del_book w path)) path = None) as Hd.
  { unfold del_book. cbn [w_books]. apply dget_ddel_same; [exact String.eqb_sym | exact string_eqb_trans |]. now apply (keys_distinct_NoDup String.eqb String.eqb_eq). }
  exists (del_book w path). split; [| exact Hd].
  destruct (plain_wf f (inv_decl _ _ Hr)) as [Hnn _]. destruct (pull_same f g w d Hnn (fun t ts H => proj2 (Hsame t ts H))) as (l & El & _).
  apply (xlsx_gone date_of show_date saved f pretty path g w t ts Hin); [| exact Es | eauto].
  rewrite Eg. unfold seen, yields, xls_source. rewrite Hd. reflexivity.
Qed.
Print Assumptions C152_xlsx_gone.

Theorem C152_xlsx_refuted : exists date_of float_of show_date saved f w path g, reachable no_parse f /\
  gen_xls_create date_of float_of f true false (fun _ => 0) w path = Ret g /\
  seen (f_defaults f) "log" (mkT [] ["What"; "Amount"]) (g "log") w = Ret (wl_obj "log") /\ dget String.eqb (w_books w) path <> None /\
  exists w', gen_xls_write date_of show_date saved f None false true path g w = (false, w') /\ dget String.eqb (w_books w') path = None.
Proof.
  exists wi_date, wc_float, wc_show, wx_saved, wl_fac, wl_w, "data.xlsx", wl_xlsx. split; [exact wl_reach |]. split; [exact wl_xlsx_made |].
  split; [exact (proj2 wl_xls_rows) |]. split; [discriminate |]. eexists. split; vm_compute; reflexivity.
Qed.
Print Assumptions C152_xlsx_refuted.

(** .xls: as the object with ordinary tables. *)
Theorem C152_xls : forall parses date_of float_of show_date saved f headers offsets xld pretty allow w path path' b g d, reachable parses f ->
  dget String.eqb (w_books w) path = Some b -> gen_xls_create date_of float_of f headers false offsets w path = Ret g ->
  xls_create date_of float_of f b headers false offsets = Ret d ->
  gen_xls_write date_of show_date saved f (Some xld) pretty allow path' g w =
    if allow || negb (dmem String.eqb (w_books w) path') then
      match xls_write date_of show_date saved f true pretty d with
      | Ret sheets => (true, set_book w path' (mkBook (Some xld) sheets))
      | Raise => (false, w)
      end
    else (false, w).
Proof.
  intros parses date_of float_of show_date saved f headers offsets xld pretty allow w path path' b g d Hr Hb Hc Hcd. apply reachable_inv in Hr.
  pose proof (xls_lazy date_of float_of f parses Hr headers offsets w path b Hb) as H. rewrite Hc, Hcd in H. destruct H as (A & _).
  destruct (plain_wf f (inv_decl _ _ Hr)) as [Hn _]. rewrite (xls_same date_of show_date saved f xld pretty allow path' g w d Hn); [| intros t ts Hin; now apply A].
  assert (sheets_differ (map fst (f_decl f)) = true) as ->; [| reflexivity].
  unfold xls_create in Hcd. destruct (sheets_differ _); [reflexivity | discriminate].
Qed.
Print Assumptions C152_xls.

Example C152_ex : get_file_path (map fst wl_dir) "log" = Ret (Some (csv_name false (map fst (f_decl wl_fac)) "log")) /\
  Permutation ["items"; "log"] (map fst (plain_schema wl_fac)) /\ NoDup (map fst (w_books wl_w)) /\
  (exists dir', gen_csv_save wi_date wc_num wc_show wl_fac true false true "copy" wl_csv wl_w = (true, set_dir wl_w "copy" dir') /\
     In ("log.csv", true, [["What"; "Amount"]; ["start"; "1"]; ["stop"; "2"]]) dir') /\
  (exists w', gen_sql_write wi_date fw_store fw_free fw_default wl_fac true "data.db" wl_sql wl_w = (true, w') /\ wl_log wl_sql w' = Ret (wl_obj "log")) /\
  (exists w', gen_xls_write wi_date wc_show wx_saved wl_fac (Some wl_xld) false true "data.xls" wl_xls wl_w = (true, w') /\ wl_log wl_xls w' = Ret (wl_obj "log")).
Proof.
  split; [reflexivity |]. split; [apply Permutation_refl |]. split.
  { constructor; [intros [E | []]; discriminate E |]. constructor; [intros [] | constructor]. }
  split; [eexists; split; [vm_compute; reflexivity | vm_compute; auto] |].
  split; eexists; split; vm_compute; reflexivity.
Qed.

(** ** C153 Rows for a generator table *)

(** With the factory's default setting for duplicates, two good rows are refused. *)
Theorem C153_refuted : exists f w rows, reachable no_parse f /\ f_dup f = VStr "assert" /\ good_rows ["What"; "Amount"] rows = true /\
  gen_construct (plain_schema f) (f_defaults f) (dup_mode f) (f_gens f) w [("log", GVal (TRows rows))] = None.
Proof. exists wl_fac, wl_w, wl_rows. split; [exact wl_reach |]. split; [reflexivity |]. split; vm_compute; reflexivity. Qed.
Print Assumptions C153_refuted.

(** So is every container with a row in it. *)
Theorem C153_refused : forall parses f w inputs t ts rs, reachable parses f -> f_dup f = VStr "assert" ->
  NoDup (map fst inputs) -> (forall u, In u (map fst inputs) -> In u (map fst (plain_schema f))) ->
  In (t, ts) (plain_schema f) -> In t (f_gens f) -> In (t, GVal (TRows rs)) inputs -> rs <> [] ->
  gen_construct (plain_schema f) (f_defaults f) (dup_mode f) (f_gens f) w inputs = None.
Proof.
  intros parses f w inputs t ts rs Hr Hm. apply reachable_inv in Hr. apply (rows_refused f parses Hr). unfold dup_mode. now rewrite Hm.
Qed.
Print Assumptions C153_refused.

(** Functions yielding rows, or containers if the check is off: the object has the rows it would have without
    generator tables, and is refused when it would be. *)
Theorem C153_made : forall parses f w inputs ginputs, reachable parses f -> NoDup (map fst inputs) ->
  (forall u, In u (map fst inputs) -> In u (map fst (plain_schema f))) ->
  Forall2 (fun i gi => fst gi = fst i /\
    (snd gi = GVal (snd i) /\ (In (fst i) (f_gens f) -> dup_mode f <> "assert" /\ exists rs, snd i = TRows rs) \/
     In (fst i) (f_gens f) /\ exists rs s, snd i = TRows rs /\ snd gi = GFun s /\ s w = Ret rs)) inputs ginputs ->
  match construct (plain_schema f) (f_defaults f) (dup_mode f) inputs,
        gen_construct (plain_schema f) (f_defaults f) (dup_mode f) (f_gens f) w ginputs with
  | Some d, Some g => same_rows f w g d
  | None, None => True
  | _, _ => False
  end.
Proof. intros parses f w inputs ginputs Hr. apply reachable_inv in Hr. exact (made_alike f parses Hr w inputs ginputs). Qed.
Print Assumptions C153_made.

(** A list of the caller is taken exactly as the function that hands it out, if the check is off:
    what [C153_made] says of such functions holds of lists, and the table follows the list. *)
Theorem C153_list : forall parses f w inputs inputs', reachable parses f -> dup_mode f <> "assert" ->
  Forall2 (fun i i' => fst i' = fst i /\ (snd i' = snd i \/
    In (fst i) (f_gens f) /\ exists n, snd i = GRef n /\ snd i' = GFun (fun w => Ret (the_list w n)))) inputs inputs' ->
  gen_construct (plain_schema f) (f_defaults f) (dup_mode f) (f_gens f) w inputs =
  gen_construct (plain_schema f) (f_defaults f) (dup_mode f) (f_gens f) w inputs'.
Proof. intros parses f w inputs inputs' _. apply list_as_function. Qed.
Print Assumptions C153_list.

(** A dict is refused, whatever is in it. *)
Theorem C153_dict : forall parses f w inputs t l, reachable parses f -> In t (f_gens f) -> In (t, GVal (TDict l)) inputs ->
  gen_construct (plain_schema f) (f_defaults f) (dup_mode f) (f_gens f) w inputs = None.
Proof. intros parses f w inputs t l _. apply dict_refused. Qed.
Print Assumptions C153_dict.

Example C153_ex : exists g h, dup_mode wl_lax <> "assert" /\
  gen_construct (plain_schema wl_lax) (f_defaults wl_lax) (dup_mode wl_lax) (f_gens wl_lax) wl_w [("log", GVal (TRows wl_rows))] = Some g /\
  gen_construct (plain_schema wl_fac) (f_defaults wl_fac) (dup_mode wl_fac) (f_gens wl_fac) wl_w [("log", GFun wl_over)] = Some h /\
  wl_log g wl_w = Ret (wl_obj "log") /\ wl_log h wl_w = Ret (wl_obj "log").
Proof.
  eexists. eexists. split; [discriminate |]. split; [vm_compute; reflexivity |]. split; [vm_compute; reflexivity |]. split; vm_compute; reflexivity.
Qed.

(** ** C154 Reports *)

(** A cell of the wrong type in a generator table: nothing is reported. *)
Theorem C154_types_refuted : exists parses sch tys gens d, wf_schema sch /\ wf_types sch tys /\ wf_dat sch d /\
  failing parses sch tys d "log" "Amount" (RIdx 1) (VStr "many") /\ gen_type_failures parses sch tys gens d PInf = Some [].
Proof.
  exists no_parse, (plain_schema wl_fac), wl_types, ["log"], wl_dat. split; [exact wl_wf |]. split; [exact wl_types_wf |]. split; [exact wl_dat_wf |].
  split; [exact wl_failing | vm_compute; reflexivity].
Qed.
Print Assumptions C154_types_refuted.

(** The report is exact for the other tables, and silent on generator tables. *)
Theorem C154_types : forall parses sch gens d tys rep, wf_schema sch -> wf_types sch tys -> wf_dat sch d ->
  (forall t ts, In (t, ts) sch -> In t gens -> tpk ts = []) ->
  gen_type_failures parses sch tys gens d PInf = Some rep ->
  forall t x rid, reports_row rep t x rid <-> ~ In t gens /\ exists v, failing parses sch tys d t x rid v.
Proof.
  intros parses sch gens d tys rep Hs Ht Hd Hg H t x rid. rewrite (types_exact parses sch gens d Hs Hd Hg tys rep Ht H). now rewrite mem_str_false.
Qed.
Print Assumptions C154_types.

(** There always is such a report. *)
Theorem C154_types_returns : forall parses sch tys gens d, exists rep, gen_type_failures parses sch tys gens d PInf = Some rep.
Proof. intros. eexists. reflexivity. Qed.
Print Assumptions C154_types_returns.

(** Foreign keys: the call raises as soon as a generator table is native, or foreign with a row to look up. *)
Theorem C154_fk_raises : forall sch fks gens d, gen_fk_failures sch fks gens d = None <->
  (exists k, In k fks /\ (In (fk_native k) gens \/ In (fk_foreign k) gens /\ rows_of (d (fk_native k)) <> [])) \/
  find_foreign_key_failures sch fks d PInf = None.
Proof.
  intros sch fks gens d. unfold gen_fk_failures. destruct (existsb (fk_stumbles gens d) fks) eqn:E.
  - split; [intros _; left | reflexivity]. apply existsb_exists in E as (k & Hk & E). exists k. split; auto. unfold fk_stumbles in E.
    apply orb_true_iff in E as [E | E]; [left; now apply mem_str_iff |]. apply andb_true_iff in E as [E1 E2]. right. split; [now apply mem_str_iff |].
    destruct (rows_of (d (fk_native k))); [discriminate E2 | discriminate].
  - split; [auto |]. intros [(k & Hk & H) | H]; [| exact H]. exfalso. apply not_true_iff_false in E. apply E. apply existsb_exists. exists k. split; auto.
    unfold fk_stumbles. destruct H as [H | [H1 H2]]; [apply mem_str_iff in H; now rewrite H |]. apply mem_str_iff in H1. rewrite H1.
    destruct (rows_of (d (fk_native k))); [contradiction | apply orb_true_r].
Qed.
Print Assumptions C154_fk_raises.

(** Otherwise the report is exact. *)
Theorem C154_fk : forall sch fks gens d rep, wf_schema sch -> wf_dat sch d -> NoDup fks -> (forall k, In k fks -> wf_fk sch k /\ distinct_foreign k) ->
  gen_fk_failures sch fks gens d = Some rep -> forall k rid, fk_reports_row rep k rid <-> In k fks /\ orphan sch d k rid.
Proof.
  intros sch fks gens d rep Hs Hd Hn Hk H. unfold gen_fk_failures in H. destruct (existsb _ fks); [discriminate |].
  exact (proj1 (find_fks_exact sch fks d rep Hs Hd Hn Hk H)).
Qed.
Print Assumptions C154_fk.

(** The lengths of the tables: raises with a generator table, exact without. *)
Theorem C154_lengths : forall sch (g : gobj), NoDup (map fst sch) ->
  match gen_lengths sch g with
  | Raise => exists t ts s, In (t, ts) sch /\ g t = Lazy s
  | Ret l => forall t n, In (t, n) l <-> n <> 0 /\ exists ts tb, In (t, ts) sch /\ g t = Stored tb /\ out_length tb = n
  end.
Proof.
  intros sch g Hn. unfold gen_lengths. destruct (mapO _ sch) as [l |] eqn:E; cbn [bindO].
  - intros t n. rewrite filter_In. apply mapO_Forall2 in E. cbn [snd]. rewrite negb_true_iff, Nat.eqb_neq. split.
    + intros [H1 H2]. split; auto. destruct (Forall2_In_r _ _ _ _ E H1) as ([u us] & Hin & E'). cbv beta in E'. cbn [fst] in E'.
      destruct (g u) as [tb |] eqn:Eg; [| discriminate]. injection E' as -> <-. eauto.
    + intros [H1 (ts & tb & Hin & Eg & <-)]. split; auto. destruct (Forall2_In_l _ _ _ _ E Hin) as (y & Hy & E'). cbv beta in E'. cbn [fst] in E'. rewrite Eg in E'.
      injection E' as <-. exact Hy.
  - apply mapO_raises in E as ([t ts] & Hin & E). cbn [fst] in E. destruct (g t) as [| s] eqn:Eg; [discriminate |]. eauto.
Qed.
Print Assumptions C154_lengths.

Theorem C154_lengths_refuted : exists f w path g, reachable no_parse f /\ gen_csv_create wi_date wc_float f true w path = Ret g /\ gen_lengths (plain_schema f) g = Raise.
Proof. exists wl_fac, wl_w, "data", wl_csv. split; [exact wl_reach |]. split; [exact wl_csv_made | vm_compute; reflexivity]. Qed.
Print Assumptions C154_lengths_refuted.

Example C154_ex : (exists rep, gen_type_failures no_parse (plain_schema wl_fac) wl_types ["log"] wl_dat2 PInf = Some rep /\ reports_row rep "items" "Cost" (RPk [VStr "a"])) /\
  gen_fk_failures (plain_schema wl_fac) [mkFk "log" "items" [("What", "Name")]] ["log"] wl_dat = None /\
  gen_fk_failures (plain_schema wl_fac) [mkFk "log" "items" [("What", "Name")]] [] wl_dat <> None.
Proof.
  split; [eexists; split; [vm_compute; reflexivity |]; eexists; eexists; split; [now left | now left] |]. split; [vm_compute; reflexivity | vm_compute; discriminate].
Qed.

(** ** C155 Copies *)

(** The copy of an object follows the list that the object was made from. *)
Theorem C155_refuted : exists f w w' n rows g h, reachable no_parse f /\ f_dup f = VStr "assert" /\ gen_construct (plain_schema f) (f_defaults f) (dup_mode f) (f_gens f) w [("log", GFun (fun w => Ret (the_list w n)))] = Some g /\
  gen_copy f w g = Ret h /\ w' = set_list w n rows /\
  seen (f_defaults f) "log" (mkT [] ["What"; "Amount"]) (h "log") w = Ret (wl_obj "log") /\
  seen (f_defaults f) "log" (mkT [] ["What"; "Amount"]) (h "log") w' = Ret (OListed []).
Proof.
  exists wl_fac, wl_w, (set_list wl_w 0 []), 0, []. eexists. eexists. split; [exact wl_reach |]. split; [reflexivity |]. split; [vm_compute; reflexivity |]. split; [vm_compute; reflexivity |].
  split; [reflexivity |]. split; vm_compute; reflexivity.
Qed.
Print Assumptions C155_refuted.

(** The same with the list itself as argument, if the check for duplicates is off. *)
Theorem C155_list_refuted : exists f w w' n rows g h, reachable no_parse f /\ gen_construct (plain_schema f) (f_defaults f) (dup_mode f) (f_gens f) w [("log", GRef n)] = Some g /\
  gen_copy f w g = Ret h /\ w' = set_list w n rows /\
  seen (f_defaults f) "log" (mkT [] ["What"; "Amount"]) (h "log") w = Ret (wl_obj "log") /\
  seen (f_defaults f) "log" (mkT [] ["What"; "Amount"]) (h "log") w' = Ret (OListed []).
Proof.
  exists wl_lax, wl_w, (set_list wl_w 0 []), 0, []. eexists. eexists. split; [exact wl_lax_reach |]. split; [vm_compute; reflexivity |]. split; [vm_compute; reflexivity |].
  split; [reflexivity |]. split; vm_compute; reflexivity.
Qed.
Print Assumptions C155_list_refuted.

(** The copy shows what the object shows, now and later. *)
Theorem C155_copy : forall parses f w g, reachable parses f ->
  (forall t ts, In (t, ts) (plain_schema f) -> match g t with Stored tb => ~ In t (f_gens f) /\ table_ok ts tb | Lazy _ => In t (f_gens f) end) ->
  (forall t ts, In (t, ts) (plain_schema f) -> seen (f_defaults f) t ts (g t) w <> Raise) ->
  exists h, gen_copy f w g = Ret h /\ forall t ts, In (t, ts) (plain_schema f) ->
    (forall w', seen (f_defaults f) t ts (h t) w' = seen (f_defaults f) t ts (g t) w') /\
    (forall tb, g t = Stored tb <-> h t = Stored tb).
Proof.
  intros parses f w g Hr Hok Hs. apply reachable_inv in Hr.
  assert (gobj_ok f g) as Hg.
  { intros t ts Hin. pose proof (Hok t ts Hin) as H. destruct (g t); [destruct H; split; auto; now apply mem_str_false | now apply mem_str_iff]. }
  assert (exists l, pull f g w = Ret l) as Hp.
  { unfold pull. apply mapO_total. intros [t ts] Hin. cbn [fst snd]. specialize (Hs t ts Hin). destruct (seen _ _ _ _ _); [eexists; reflexivity | contradiction]. }
  destruct (copy_follows f parses Hr w g Hg Hp) as (h & Eh & Hh & Hsame). exists h. split; [exact Eh |]. intros t ts Hin. split; [intros; now apply Hsame |].
  intros tb. pose proof (Hg t ts Hin) as A. pose proof (Hh t ts Hin) as B. pose proof (Hsame t ts w Hin) as C.
  destruct (g t) as [tg | sg]; destruct (h t) as [th | sh].
  - cbn [seen] in C. injection C as ->. tauto.
  - destruct A as [A _]. congruence.
  - destruct B as [B _]. congruence.
  - split; discriminate.
Qed.
Print Assumptions C155_copy.

Example C155_ex : exists h, gen_copy wl_fac wl_w wl_csv = Ret h /\ wl_log h wl_w = Ret (wl_obj "log") /\ h "items" = Stored (wl_obj "items") /\
  wl_log h (set_dir wl_w "data" []) = Raise.
Proof. eexists. split; [vm_compute; reflexivity |]. split; [vm_compute; reflexivity |]. split; vm_compute; reflexivity. Qed.

(** ** C156 Calls of a writer that fail *)

(** csv: the second file cannot be written; the first has been replaced. *)
Theorem C156_csv_refuted : exists date_of show_num show_date f w path g, reachable no_parse f /\ (forall t, exists tb, g t = Stored tb) /\
  exists w', gen_csv_save date_of show_num show_date f true false true path g w = (false, w') /\ dget String.eqb (w_dirs w') path <> dget String.eqb (w_dirs w) path /\
    dget String.eqb (w_dirs w) path = Some [("items.csv", true, [["Name"; "Cost"]; ["old"; "1"]]); ("log.csv", false, [])].
Proof.
  exists wi_date, wc_num, wc_show, wl_f0, (mkW [("data", [("items.csv", true, [["Name"; "Cost"]; ["old"; "1"]]); ("log.csv", false, [])])] [] [] []), "data", (fun t => Stored (wl_obj t)).
  split; [exists wl_decl, wl_f0, []; split; reflexivity |]. split; [intros t; eauto |]. eexists. split; [vm_compute; reflexivity |]. split; [vm_compute; discriminate | reflexivity].
Qed.
Print Assumptions C156_csv_refuted.

(** .xlsx: a cell that cannot be written, and the old file is gone. *)
Theorem C156_xlsx_refuted : exists date_of show_date saved f w path g, reachable no_parse f /\ (forall t, exists tb, g t = Stored tb) /\ dget String.eqb (w_books w) path <> None /\
  exists w', gen_xls_write date_of show_date saved f None false true path g w = (false, w') /\ dget String.eqb (w_books w') path = None.
Proof.
  exists wi_date, wc_show, wx_saved, wl_f0, wl_w, "data.xlsx", (fun t => Stored (if String.eqb t "items" then OKeyed [(KAtom (VStr "a"), [VNaN])] else OListed [])).
  split; [exists wl_decl, wl_f0, []; split; reflexivity |]. split; [intros t; eauto |]. split; [discriminate |]. eexists. split; vm_compute; reflexivity.
Qed.
Print Assumptions C156_xlsx_refuted.

(** .xls: a failed call changes nothing, whatever the reason. *)
Theorem C156_xls : forall date_of show_date saved f xld pretty allow path g w w',
  gen_xls_write date_of show_date saved f (Some xld) pretty allow path g w = (false, w') -> w' = w.
Proof.
  intros date_of show_date saved f xld pretty allow path g w w' H. unfold gen_xls_write in H. destruct (pull f g w); [| now injection H as <-].
  destruct (_ && _); [| now injection H as <-]. destruct (xls_write _ _ _ _ _ _ _); [discriminate | now injection H as <-].
Qed.
Print Assumptions C156_xls.

(** csv: other directories, databases, workbooks and lists are as before, and so are files under other names. *)
Theorem C156_csv_others : forall date_of show_num show_date f headers pretty allow path g w ok w',
  gen_csv_save date_of show_num show_date f headers pretty allow path g w = (ok, w') ->
  (forall p, p <> path -> dget String.eqb (w_dirs w') p = dget String.eqb (w_dirs w) p) /\ w_dbs w' = w_dbs w /\ w_books w' = w_books w /\ w_lists w' = w_lists w /\
  forall n file, (forall t, In t (map fst (plain_schema f)) -> csv_name pretty (map fst (f_decl f)) t <> n) ->
    the_file (dget_or String.eqb (w_dirs w) path []) n file -> the_file (dget_or String.eqb (w_dirs w') path []) n file.
Proof.
  intros date_of show_num show_date f headers pretty allow path g w ok w' H. unfold gen_csv_save in H.
  assert (forall tables w ok w', gen_csv_files date_of show_num show_date f headers pretty path g tables w = (ok, w') ->
    (forall p, p <> path -> dget String.eqb (w_dirs w') p = dget String.eqb (w_dirs w) p) /\ w_dbs w' = w_dbs w /\ w_books w' = w_books w /\ w_lists w' = w_lists w) as Hother.
  { induction tables as [| [t ts] tables IH]; intros w0 ok0 w0' E; cbn [gen_csv_files] in E; [injection E as _ <-; auto |].
    assert (forall d, (forall p, p <> path -> dget String.eqb (w_dirs (set_dir w0 path d)) p = dget String.eqb (w_dirs w0) p)) as Hd by (intros d p Hp; apply dir_other; auto).
    destruct (put _ _ []) as [dir0 |]; [| injection E as _ <-; auto]. destruct (put dir0 _ _) as [dir1 |]; [| injection E as _ <-; auto].
    match type of E with context [if snd ?b then _ else _] => destruct (snd b) end; [| injection E as _ <-; auto].
    destruct (IH _ _ _ E) as (A & B & C & D). split; [intros p Hp; rewrite (A p Hp); now apply Hd |]. auto. }
  destruct (pull f g w); [| injection H as _ <-; auto]. destruct (negb allow && _); [injection H as _ <-; auto |].
  pose proof (Hother _ _ _ _ H) as (A & B & C & D). split; [intros p Hp; rewrite (A p Hp); apply dir_other; auto |]. split; [exact B |]. split; [exact C |]. split; [exact D |].
  intros n file Hn Hf. pose proof (files_keep date_of show_num show_date f headers pretty path g (plain_schema f) (set_dir w path (dget_or String.eqb (w_dirs w) path [])) n file) as K.
  rewrite H in K. cbn [snd] in K. apply K; [intros t ts Hin; apply Hn; now apply (in_map fst) in Hin | now rewrite dir_set].
Qed.
Print Assumptions C156_csv_others.

(** Without [allow_overwrite], a file of a table suffices for nothing to happen. *)
Theorem C156_csv_refuses : forall date_of show_num show_date f headers pretty path g w t e,
  In t (map fst (f_decl f)) -> In e (dget_or String.eqb (w_dirs w) path []) -> fst (fst e) = append t ".csv" ->
  gen_csv_save date_of show_num show_date f headers pretty false path g w = (false, w).
Proof.
  intros date_of show_num show_date f headers pretty path g w t e Ht He E. unfold gen_csv_save. destruct (pull f g w); [| reflexivity].
  assert (existsb (fun t => existsb (fun e => String.eqb (fst (fst e)) (append t ".csv")) (dget_or String.eqb (w_dirs w) path [])) (map fst (f_decl f)) = true) as ->; [| reflexivity].
  apply existsb_exists. exists t. split; auto. apply existsb_exists. exists e. split; auto. rewrite E. apply String.eqb_refl.
Qed.
Print Assumptions C156_csv_refuses.

Example C156_ex : gen_csv_save wi_date wc_num wc_show wl_fac true false false "data" wl_csv wl_w = (false, wl_w) /\
  the_file (dget_or String.eqb (w_dirs wl_w) "data" []) "notes.txt" [["?"]] /\
  (forall t, In t (map fst (plain_schema wl_fac)) -> csv_name false (map fst (f_decl wl_fac)) t <> "notes.txt") /\
  fst (gen_xls_write wi_date wc_show (fun _ => Raise) wl_fac (Some wl_xld) false true "data.xls" wl_xls wl_w) = false.
Proof.
  split; [vm_compute; reflexivity |]. split.
  { split; [right; right; now left |]. intros e [<- | [<- | [<- | []]]] E; cbn in E; [discriminate E | discriminate E | reflexivity]. }
  split; [| vm_compute; reflexivity]. intros t [<- | [<- | []]]; vm_compute; discriminate.
Qed.
