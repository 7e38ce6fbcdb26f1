(** * Property theorems: C128-C134 (SQLite and Access files).

    [store], [key_free]: what a column stores and which keys a table accepts; any behaviour is allowed.
    The file is [None] where there is none.  A write returns whether the call returned, and the file
    afterwards. *)
From Coq Require Import ZArith Bool List String Ascii Arith Permutation.
From Verif Require Import PyVal PyDict PyStr TypeDict Data FindTypes FK Graph GraphFacts Obj ObjFacts ObjMore Factory InfIO InfIOFacts Params Names
  Utils UtilsMore Ampl Json ObjRows TripFacts Sql Pg InfWitness JsonWitness PgWitness
  FileDb FileDbFacts FileDbTrip FileDbDups FileDbWrite FileDbAccess FileDbLoss FileDbMore FileDbWitness.
Import ListNotations.
Local Open Scope string_scope.
Local Open Scope list_scope.

(** ** C128 SQLite: all or nothing *)

(** A failed write to a path where nothing was leaves a file there. *)
Theorem C128_refuted : exists store key_free date_of sql_default f d db, decl_ok (f_decl f) = true /\ obj_ok (plain_schema f) d /\
  forall allow, sql_write_file store key_free date_of sql_default f allow d None = (false, Some db).
Proof.
  exists fw_store, fw_free, wi_date, fw_default, wp_fac, fw_bad, (snd (sql_write_schema fw_default wp_fac [])).
  refine (conj _ (conj (proj1 fw_bad_ok) _)); [vm_compute; reflexivity |]. intros [|]; vm_compute; reflexivity.
Qed.
Print Assumptions C128_refuted.

(** In general: the tables of the schema and no row. *)
Theorem C128_left_behind : forall store key_free date_of sql_default f allow d p,
  decl_ok (f_decl f) = true -> acyclic (f_fks f) -> fks_within (f_fks f) (map fst (plain_schema f)) ->
  sql_write_file store key_free date_of sql_default f allow d None = (false, p) ->
  exists db, p = Some db /\ forall t ts, In (t, ts) (plain_schema f) ->
    exists dt, find_table db t = Some dt /\ map dc_name (dt_cols dt) = tfields ts /\ dt_rows dt = [].
Proof.
  intros store key_free date_of sql_default f allow d p Hd Ha Hw H.
  destruct (sql_new_file store key_free date_of sql_default f Hd Ha Hw) as (db & _ & _ & _ & A & _ & B). rewrite B in H.
  apply sql_failed in H. exists db. split; auto. intros t ts Hin. exists (sql_table sql_default f t ts). split; auto. split; [apply sql_cols | reflexivity].
Qed.
Print Assumptions C128_left_behind.

(** A file that was there before is as before when the call fails. *)
Theorem C128_failed : forall store key_free date_of sql_default f allow d db p,
  sql_write_file store key_free date_of sql_default f allow d (Some db) = (false, p) -> p = Some db.
Proof. exact sql_failed. Qed.
Print Assumptions C128_failed.

(** Without [allow_overwrite], one row in one of the tables suffices for the call to fail. *)
Theorem C128_refuses : forall store key_free date_of sql_default f d db t ts dt,
  decl_ok (f_decl f) = true -> In (t, ts) (plain_schema f) -> find_table db t = Some dt -> dt_rows dt <> [] ->
  sql_write_file store key_free date_of sql_default f false d (Some db) = (false, Some db).
Proof. exact sql_refuses. Qed.
Print Assumptions C128_refuses.

(** When the call returns, the tables of the schema have the rows of the object and no others,
    and the rest of the file is as before. *)
Theorem C128_written : forall store key_free date_of sql_default f allow d db p,
  decl_ok (f_decl f) = true -> obj_ok (plain_schema f) d ->
  sql_write_file store key_free date_of sql_default f allow d (Some db) = (true, p) ->
  exists db', p = Some db' /\ all_found f db /\ holds_object store f (sql_cell date_of f) d db db' /\
    (allow = false -> forall t ts dt, In (t, ts) (plain_schema f) -> find_table db t = Some dt -> dt_rows dt = []).
Proof. intros store key_free date_of sql_default f allow d db p Hd Hok. exact (sql_written store key_free date_of f allow d db p Hd Hok sql_default). Qed.
Print Assumptions C128_written.

(** It does return if the tables are there with their fields, are empty or may be overwritten, and the file
    accepts every row. *)
Theorem C128_returns : forall store key_free date_of sql_default f allow d db new,
  decl_ok (f_decl f) = true -> file_wf db -> obj_ok (plain_schema f) d -> all_found f db ->
  (allow = false -> forall t ts dt, In (t, ts) (plain_schema f) -> find_table db t = Some dt -> dt_rows dt = []) ->
  (forall t ts dt, In (t, ts) (plain_schema f) -> find_table db t = Some dt ->
     Forall2 (row_as store (sql_cell date_of f t ts) ts dt) (full_rows (d t)) (new t) /\ keys_ok key_free dt (new t)) ->
  exists db', sql_write_file store key_free date_of sql_default f allow d (Some db) = (true, Some db').
Proof. exact sql_succeeds. Qed.
Print Assumptions C128_returns.

(** A new file is one with the tables of the schema, without rows. *)
Theorem C128_new_file : forall store key_free date_of sql_default f,
  decl_ok (f_decl f) = true -> acyclic (f_fks f) -> fks_within (f_fks f) (map fst (plain_schema f)) ->
  exists db, sql_write_schema sql_default f [] = (true, db) /\ all_found f db /\ file_wf db /\
    (forall t ts, In (t, ts) (plain_schema f) -> exists dt, find_table db t = Some dt /\
       map dc_name (dt_cols dt) = tfields ts /\ dt_key dt = tpk ts /\ dt_rows dt = [] /\
       (forall c, In c (dt_cols dt) -> In (dc_name c) (tdf ts) -> ~ In (dc_name c) (tpk ts) ->
          dc_default c = sql_default (cell_default (f_defaults f) t (dc_name c)))) /\
    (forall n, (forall t, In t (map fst (plain_schema f)) -> lower t <> lower n) -> find_table db n = None) /\
    forall allow d, sql_write_file store key_free date_of sql_default f allow d None = sql_write_file store key_free date_of sql_default f allow d (Some db).
Proof.
  intros store key_free date_of sql_default f Hd Ha Hw. destruct (sql_new_file store key_free date_of sql_default f Hd Ha Hw) as (db & A & B & C & D & E & F).
  exists db. split; auto. split; auto. split; auto. split; [| auto]. intros t ts Hin. exists (sql_table sql_default f t ts).
  split; auto. split; [apply sql_cols |]. split; auto. split; auto. intros c Hc _ Hn. cbn [sql_table dt_cols] in Hc. apply in_app_or in Hc as [Hc | Hc].
  - apply in_map_iff in Hc as (x & <- & Hx). contradiction.
  - apply in_map_iff in Hc as (x & <- & Hx). reflexivity.
Qed.
Print Assumptions C128_new_file.

Example C128_ex :
  fw_sql true fw_bad None = (false, Some (snd (sql_write_schema fw_default wp_fac []))) /\
  fw_sql true fw_bad (Some fw_db) = (false, Some fw_db) /\ fw_sql false fw_obj (Some fw_db) = (false, Some fw_db) /\
  fw_sql true fw_obj (Some fw_db) = (true, Some fw_full) /\ all_found wp_fac fw_db /\
  find_table fw_full "log" = Some (mkDT [mkDC "amount" "REAL" VNone; mkDC "what" "TEXT" VNone; mkDC "note" "TEXT" (VStr "-")] []
    [[int 1; VStr "it's"; VStr "-"]; [int 1; VStr "it's"; VStr "-"]]) /\
  find_table fw_full "old" = find_table fw_db "old" /\
  acyclic (f_fks wp_fac) /\ fks_within (f_fks wp_fac) (map fst (plain_schema wp_fac)) /\ obj_ok (plain_schema wp_fac) fw_obj.
Proof.
  refine (conj _ (conj _ (conj _ (conj _ (conj _ (conj _ (conj _ (conj fw_acyclic (conj wp_within (proj1 fw_ok)))))))))).
  - vm_compute; reflexivity.
  - vm_compute; reflexivity.
  - vm_compute; reflexivity.
  - apply done_ok. vm_compute; reflexivity.
  - apply found_ok. vm_compute; reflexivity.
  - vm_compute; reflexivity.
  - vm_compute; reflexivity.
Qed.

(** ** C129 SQLite: round trip through a file *)

(** Whatever columns, types, rows and further tables the file has, if each cell
    comes back from its column ([file_trip]) the object comes back, however the file orders its rows. *)
Theorem C129_round_trip : forall store key_free date_of float_of sql_default f allow d db db2 db3,
  decl_ok (f_decl f) = true -> file_wf db ->
  obj_ok (plain_schema f) d -> obj_keys (plain_schema f) d -> proper_keys (plain_schema f) d ->
  cells_kept f (file_trip store f (read_data_cell date_of float_of) (sql_cell date_of f) db) d ->
  params_kept date_of float_of f (file_trip store f (read_data_cell date_of float_of) (sql_cell date_of f) db) d ->
  sql_write_file store key_free date_of sql_default f allow d (Some db) = (true, Some db2) -> same_file db2 db3 ->
  exists e, sql_read_file date_of float_of f db3 = Ret e /\ forall t ts, In (t, ts) (plain_schema f) -> reordered (e t) (d t).
Proof.
  intros store key_free date_of float_of sql_default f allow d db db2 db3 Hd Hwf Hok Hk Hp Hc Hpa Hw Hs.
  apply (sql_written store key_free date_of f allow d db _ Hd Hok sql_default) in Hw as (db' & E & A & B & _). injection E as <-.
  eapply file_round_trip; eauto.
Qed.
Print Assumptions C129_round_trip.

(** The same through a new file. *)
Theorem C129_new_file : forall store key_free date_of float_of sql_default f allow d db2 db3,
  decl_ok (f_decl f) = true -> acyclic (f_fks f) -> fks_within (f_fks f) (map fst (plain_schema f)) ->
  obj_ok (plain_schema f) d -> obj_keys (plain_schema f) d -> proper_keys (plain_schema f) d ->
  let trip := fun t ts x v w => forall u s, sql_cell date_of f t ts x v = Ret u ->
    store (if mem_str x (tdf ts) then sql_type f t x else "") u = Some s -> read_data_cell date_of float_of f t x s = Ret w in
  cells_kept f trip d -> params_kept date_of float_of f trip d ->
  sql_write_file store key_free date_of sql_default f allow d None = (true, Some db2) -> same_file db2 db3 ->
  exists e, sql_read_file date_of float_of f db3 = Ret e /\ forall t ts, In (t, ts) (plain_schema f) -> reordered (e t) (d t).
Proof.
  intros store key_free date_of float_of sql_default f allow d db2 db3 Hd Ha Hfk Hok Hk Hp trip Hc Hpa Hw Hs.
  destruct (sql_new_file store key_free date_of sql_default f Hd Ha Hfk) as (db & _ & Hfound & Hwf & Hmk & _ & Hsame).
  rewrite Hsame in Hw.
  assert (forall t ts x v w, In (t, ts) (plain_schema f) -> In x (tfields ts) -> trip t ts x v w ->
    file_trip store f (read_data_cell date_of float_of) (sql_cell date_of f) db t ts x v w) as Q.
  { intros t ts x v w Hin Hx H dt c F Hcol Hlow u s Hu Hst. rewrite (Hmk _ _ Hin) in F. injection F as <-. cbn [sql_table dt_cols] in Hcol.
    pose proof (proj2 (CsvMore.plain_fields f t ts Hd Hin)) as Hnd.
    assert (forall y, In y (tfields ts) -> lower y = lower x -> y = x) as Hinj.
    { intros y Hy El. eapply (ListFacts.NoDup_map_inj_in lower); eauto. }
    apply (H u s); auto. rewrite <- Hst. f_equal. unfold tfields in *. apply in_app_or in Hcol as [Hcol | Hcol]; apply in_map_iff in Hcol as (y & <- & Hy); cbn [dc_name dc_type] in *.
    - rewrite (Hinj y) in Hy by (auto; apply in_or_app; auto). destruct (mem_str x (tdf ts)) eqn:M; auto. apply GraphFacts.mem_str_iff in M. exfalso.
      rewrite map_app in Hnd. apply (ListFacts.NoDup_app_disj _ _ (lower x) Hnd); now apply in_map.
    - assert (y = x) as -> by (apply Hinj; auto; apply in_or_app; auto). apply GraphFacts.mem_str_iff in Hy. now rewrite Hy. }
  eapply C129_round_trip; [exact Hd | exact Hwf | exact Hok | exact Hk | exact Hp | | | exact Hw | exact Hs].
  - intros t ts r x v Hin Hne Hr Hx. apply Q; auto. { eapply in_combine_l; eauto. } eapply Hc; eauto.
  - intros Hpp ts Hin. destruct (Hpa Hpp ts Hin) as (p & q & l & -> & E & H). exists p, q, l. split; auto. split; auto. intros k r Hkr.
    destruct (H k r Hkr) as (a & v & w & E1 & E2 & T1 & T2 & E3). exists a, v, w. split; auto. split; auto.
    split; [apply Q; auto; simpl; auto |]. split; [apply Q; auto; simpl; auto | auto].
Qed.
Print Assumptions C129_new_file.

Example C129_ex : exists e,
  file_wf fw_db /\ cells_kept wp_fac (file_trip fw_store wp_fac fw_read fw_W fw_db) fw_obj /\
  params_kept wi_date wi_float wp_fac (file_trip fw_store wp_fac fw_read fw_W fw_db) fw_obj /\
  fw_sql true fw_obj (Some fw_db) = (true, Some fw_full) /\ same_file fw_full (moved fw_full) /\
  sql_read_file wi_date wi_float wp_fac (moved fw_full) = Ret e /\
  e "parent" = OKeyed [(KAtom (VStr "a"), [int 999; VDate 5]); (KAtom (VStr "b"), [VNum PInf; VDate 5])] /\
  e "parameters" = OKeyed [(KAtom (VStr "Big"), [int 7])].
Proof.
  eexists. refine (conj _ (conj _ (conj _ (conj _ (conj _ (conj _ (conj _ _))))))).
  - apply file_wf_ok. vm_compute; reflexivity.
  - apply file_cells_ok. vm_compute; reflexivity.
  - apply fw_params; vm_compute; reflexivity.
  - apply done_ok. vm_compute; reflexivity.
  - apply moved_ok. vm_compute; reflexivity.
  - vm_compute; reflexivity.
  - vm_compute; reflexivity.
  - vm_compute; reflexivity.
Qed.

(** ** C130 Duplicates *)

(** Two spellings of one day are different keys for [find_duplicates] and one key for
    [create_tic_dat]: a row is lost and nothing reported. *)
Theorem C130_refuted : exists date_of float_of f db dt e e', decl_ok (f_decl f) = true /\
  find_table db "days" = Some dt /\ List.length (dt_rows dt) = 2 /\
  sql_duplicates date_of float_of f db = Ret [] /\ mdb_duplicates date_of float_of f db = Ret [] /\
  sql_read_file date_of float_of f db = Ret e /\ e "days" = OKeyed [(KAtom (VDate 5), [int 2])] /\
  mdb_read_file date_of float_of f db = Ret e' /\ e' "days" = OKeyed [(KAtom (VDate 5), [int 2])].
Proof.
  exists fw_date, wi_float, fw_days, fw_days_db. do 3 eexists.
  refine (conj _ (conj _ (conj _ (conj _ (conj _ (conj _ (conj _ (conj _ _)))))))); vm_compute; reflexivity.
Qed.
Print Assumptions C130_refuted.

(** What is reported: the keys that occur more than once, with their counts, after the texts
    inf, -inf, true and false are converted. *)
Theorem C130_sql_exact : forall date_of float_of f db, decl_ok (f_decl f) = true ->
  (forall t ts, In (t, ts) (plain_schema f) -> tpk ts <> [] -> exists o, get_db_table (map fst db) t = Ret o /\
     forall n, o = Some n -> exists dt, find_table db n = Some dt /\ forall x, In x (tpk ts) -> has_col dt x = true) ->
  exists rep, sql_duplicates date_of float_of f db = Ret rep /\
    (forall t l, In (t, l) rep -> l <> [] /\ (exists ts, In (t, ts) (plain_schema f) /\ tpk ts <> []) /\
       forall i j k m k' m', nth_error l i = Some (k, m) -> nth_error l j = Some (k', m') -> key_pyeq k k' = true -> i = j) /\
    forall t ts, In (t, ts) (plain_schema f) -> tpk ts <> [] ->
      forall k n, (exists l k', In (t, l) rep /\ In (k', n) l /\ key_pyeq k' k = true) <-> n = occurrences k (file_keys plain_read db t ts) /\ 1 < n.
Proof.
  intros date_of float_of f db Hd. apply file_duplicates_exact; auto. intros t ts x v H1 H2. apply focused_sql. eauto.
Qed.
Print Assumptions C130_sql_exact.

(** Access: without any conversion. *)
Theorem C130_mdb_exact : forall date_of float_of f db, decl_ok (f_decl f) = true ->
  (forall t ts, In (t, ts) (plain_schema f) -> tpk ts <> [] -> exists o, get_db_table (map fst db) t = Ret o /\
     forall n, o = Some n -> exists dt, find_table db n = Some dt /\ forall x, In x (tpk ts) -> has_col dt x = true) ->
  exists rep, mdb_duplicates date_of float_of f db = Ret rep /\
    (forall t l, In (t, l) rep -> l <> [] /\ (exists ts, In (t, ts) (plain_schema f) /\ tpk ts <> []) /\
       forall i j k m k' m', nth_error l i = Some (k, m) -> nth_error l j = Some (k', m') -> key_pyeq k k' = true -> i = j) /\
    forall t ts, In (t, ts) (plain_schema f) -> tpk ts <> [] ->
      forall k n, (exists l k', In (t, l) rep /\ In (k', n) l /\ key_pyeq k' k = true) <-> n = occurrences k (file_keys (fun v => v) db t ts) /\ 1 < n.
Proof.
  intros date_of float_of f db Hd. apply file_duplicates_exact; auto. intros t ts x v H1 H2. apply focused_general. eauto.
Qed.
Print Assumptions C130_mdb_exact.

(** If no setting changes how the keys of a table are read, rows are lost exactly if the table is reported. *)
Theorem C130_sql_lost : forall date_of float_of f db e rep t ts n dt, decl_ok (f_decl f) = true ->
  In (t, ts) (plain_schema f) -> tpk ts <> [] -> get_db_table (map fst db) t = Ret (Some n) -> find_table db n = Some dt ->
  (forall r x v, In r (db_select dt (tpk ts)) -> In (x, v) (combine (tpk ts) r) -> read_data_cell date_of float_of f t x v = Ret (plain_read v)) ->
  sql_read_file date_of float_of f db = Ret e -> sql_duplicates date_of float_of f db = Ret rep ->
  ((exists l, In (t, l) rep) <-> out_length (e t) < List.length (dt_rows dt)).
Proof.
  intros date_of float_of f db e rep t ts n dt Hd. apply file_lost_reported; auto. intros u us x v H1 H2. apply focused_sql. eauto.
Qed.
Print Assumptions C130_sql_lost.

Theorem C130_mdb_lost : forall date_of float_of f db e rep t ts n dt, decl_ok (f_decl f) = true ->
  In (t, ts) (plain_schema f) -> tpk ts <> [] -> get_db_table (map fst db) t = Ret (Some n) -> find_table db n = Some dt ->
  (forall r x v, In r (db_select dt (tpk ts)) -> In (x, v) (combine (tpk ts) r) -> general_read date_of float_of f t x v = Ret v) ->
  mdb_read_file date_of float_of f db = Ret e -> mdb_duplicates date_of float_of f db = Ret rep ->
  ((exists l, In (t, l) rep) <-> out_length (e t) < List.length (dt_rows dt)).
Proof.
  intros date_of float_of f db e rep t ts n dt Hd. apply (file_lost_reported date_of float_of (general_read date_of float_of) f (fun v => v)); auto.
  intros u us x v H1 H2. apply focused_general. eauto.
Qed.
Print Assumptions C130_mdb_lost.

Example C130_ex : exists e dt,
  sql_duplicates wi_date wi_float wp_fac fw_twice = Ret [("child", [([VStr "a"; int 1], 2); ([VBool true; int 1], 3)])] /\
  mdb_duplicates wi_date wi_float wp_fac fw_twice = Ret [("child", [([VStr "a"; int 1], 2); ([VStr "true"; int 1], 2)])] /\
  sql_read_file wi_date wi_float wp_fac fw_twice = Ret e /\ get_db_table (map fst fw_twice) "child" = Ret (Some "child") /\
  find_table fw_twice "child" = Some dt /\ List.length (dt_rows dt) = 6 /\ out_length (e "child") = 3.
Proof.
  do 2 eexists. refine (conj _ (conj _ (conj _ (conj _ (conj _ (conj _ _)))))); vm_compute; reflexivity.
Qed.

(** ** C131 Access: infinities and the flag None *)

(** Cap is unbounded above; with the flag None its infinity should be NULL (it is for
    [_infinity_flag_write_cell]), but in a table with a key it is handed to the file as infinity. *)
Theorem C131_refuted : exists date_of f (d : obj) t ts x, decl_ok (f_decl f) = true /\ obj_ok (plain_schema f) d /\
  In (t, ts) (plain_schema f) /\ f_flag f = VNone /\ d t = OKeyed [(KAtom (VStr "a"), [int 1; VNum PInf; VNone])] /\
  fst (write_cell date_of (mkIO f []) t x (VNum PInf)) = Ret VNone /\ mdb_cell date_of f t ts x (VNum PInf) = Ret (VNum PInf) /\
  forall store key_free bare can_create allow order db p, (forall ty, store ty (VNum PInf) = None) ->
    Permutation order (map fst (plain_schema f)) -> file_wf db ->
    mdb_write_file store key_free date_of bare can_create f allow order d (Some db) <> (true, p).
Proof.
  exists wi_date, fw_null, fw_inf, "items", (mkT ["Name"] ["Cost"; "Cap"; "Day"]), "Cap".
  assert (obj_b (plain_schema fw_null) fw_inf = true) as Hb by (vm_compute; reflexivity). apply obj_b_ok in Hb as (Hok & _ & _).
  refine (conj _ (conj Hok (conj _ (conj _ (conj _ (conj _ (conj _ _))))))); try (vm_compute; reflexivity); [vm_compute; auto |].
  intros store key_free bare can_create allow order db p Hst P Hwf.
  apply (mdb_never store key_free wi_date bare can_create fw_null allow order fw_inf db p "items" (mkT ["Name"] ["Cost"; "Cap"; "Day"])
           [VStr "a"; int 1; VNum PInf; VNone] "Cap" (VNum PInf)); auto.
  - vm_compute; auto.
  - vm_compute; congruence.
  - intros _. congruence.
  - simpl. auto.
  - simpl. auto.
Qed.
Print Assumptions C131_refuted.

(** In general: an infinity of a table with a key is handed to the file as it is, and where columns have no
    infinity the call never returns. *)
Theorem C131_raw : forall date_of f t ts x v, f_flag f = VNone -> tpk ts <> [] -> is_table f t = true ->
  (has_params f = true -> t <> "parameters") -> field_type f t ("[" ++ x ++ "]")%string = None ->
  mdb_cell date_of f t ts x v = Ret v.
Proof. exact mdb_cell_raw. Qed.
Print Assumptions C131_raw.

Theorem C131_never : forall store key_free date_of bare can_create f allow order d db p t ts r x v,
  decl_ok (f_decl f) = true -> obj_ok (plain_schema f) d -> Permutation order (map fst (plain_schema f)) -> file_wf db ->
  f_flag f = VNone -> In (t, ts) (plain_schema f) -> tpk ts <> [] -> (has_params f = true -> t <> "parameters") ->
  field_type f t ("[" ++ x ++ "]")%string = None ->
  In r (full_rows (d t)) -> In (x, v) (combine (tfields ts) r) -> (forall ty, store ty v = None) ->
  mdb_write_file store key_free date_of bare can_create f allow order d (Some db) <> (true, p).
Proof. exact mdb_never. Qed.
Print Assumptions C131_never.

(** With another flag, without a key, for parameters, and for finite values the cell is what the flag asks for. *)
Theorem C131_same : forall date_of f t ts x v,
  f_flag f <> VNone \/ tpk ts = [] \/ (t = "parameters" /\ has_params f = true) ->
  mdb_cell date_of f t ts x v = fst (write_cell date_of (mkIO f []) t x v).
Proof. exact mdb_cell_same. Qed.
Print Assumptions C131_same.

Theorem C131_finite : forall date_of f t ts x v w, v <> VNum PInf -> v <> VNum NInf ->
  f_flag f = VNone -> tpk ts <> [] -> (has_params f = true -> t <> "parameters") -> is_table f t = true -> field_type f t ("[" ++ x ++ "]")%string = None ->
  fst (write_cell date_of (mkIO f []) t x v) = Ret w -> mdb_cell date_of f t ts x v = Ret w.
Proof. exact mdb_cell_finite. Qed.
Print Assumptions C131_finite.

Example C131_ex : (forall ty, fw_finite ty (VNum PInf) = None) /\
  mdb_cell wi_date fw_null "items" (mkT ["Name"] ["Cost"; "Cap"; "Day"]) "Cap" (VNum PInf) = Ret (VNum PInf) /\
  fst (mdb_write_file fw_finite fw_free wi_date fw_bare true fw_null true (map fst (plain_schema fw_null)) fw_inf None) = false /\
  fst (sql_write_file fw_finite fw_free wi_date fw_default fw_null true fw_inf None) = true /\
  mdb_cell wi_date wp_fac "parent" (mkT ["Code"] ["Cap"; "Day"]) "Cap" (VNum PInf) = fst (write_cell wi_date (mkIO wp_fac []) "parent" "Cap" (VNum PInf)).
Proof. refine (conj (fun _ => eq_refl) (conj _ (conj _ (conj _ _)))); vm_compute; reflexivity. Qed.

(** ** C132 Access: a write that fails *)

(** Rows of the file are gone and part of the object is there, although the call failed; even
    when it failed because [allow_overwrite] was False. *)
Theorem C132_refuted : exists store key_free date_of bare f order d bad db now dt,
  decl_ok (f_decl f) = true /\ obj_ok (plain_schema f) d /\ obj_ok (plain_schema f) bad /\ Permutation order (map fst (plain_schema f)) /\
  find_table db "log" = Some dt /\ dt_rows dt <> [] /\
  mdb_write_file store key_free date_of bare true f true order bad (Some db) = (false, Some now) /\
  (exists dt', find_table now "log" = Some dt' /\ dt_rows dt' = []) /\
  exists now', mdb_write_file store key_free date_of bare true f false order d (Some db) = (false, Some now') /\
    find_table now' "child" <> find_table db "child".
Proof.
  exists fw_store, fw_free, wi_date, fw_bare, wp_fac, fw_order, fw_obj, fw_bad, fw_db. do 2 eexists.
  refine (conj _ (conj (proj1 fw_ok) (conj (proj1 fw_bad_ok) (conj _ (conj _ (conj _ (conj _ (conj _ _)))))))).
  - vm_compute; reflexivity.
  - exact fw_order_ok.
  - vm_compute; reflexivity.
  - discriminate.
  - vm_compute; reflexivity.
  - eexists. split; vm_compute; reflexivity.
  - eexists. split; [vm_compute; reflexivity |]. vm_compute. discriminate.
Qed.
Print Assumptions C132_refuted.

(** What a failing call leaves: the file as it was, or, in the order of the set of
    tables, first tables that are complete (or emptied, if they have no key), then one that is as before or has the first
    rows of the object and no others, then tables as before. *)
Theorem C132_stopped : forall store key_free date_of bare f can_create allow order d db p,
  decl_ok (f_decl f) = true -> obj_ok (plain_schema f) d -> Permutation order (map fst (plain_schema f)) ->
  mdb_write_file store key_free date_of bare can_create f allow order d (Some db) = (false, p) ->
  exists now, p = Some now /\ (now = db \/ stopped store date_of f allow d order db now).
Proof. exact mdb_failed. Qed.
Print Assumptions C132_stopped.

(** When the call returns, the tables of the schema have the rows of the object and no others,
    and the rest of the file is as before. *)
Theorem C132_written : forall store key_free date_of bare f can_create allow order d db p,
  decl_ok (f_decl f) = true -> obj_ok (plain_schema f) d -> Permutation order (map fst (plain_schema f)) ->
  mdb_write_file store key_free date_of bare can_create f allow order d (Some db) = (true, p) ->
  exists db', p = Some db' /\ all_found f db /\ holds_object store f (mdb_cell date_of f) d db db' /\
    (allow = false -> forall t ts dt, In (t, ts) (plain_schema f) -> find_table db t = Some dt -> dt_rows dt = []).
Proof. exact mdb_written. Qed.
Print Assumptions C132_written.

Theorem C132_refuses : forall store key_free date_of bare f can_create order d db t ts dt,
  decl_ok (f_decl f) = true -> obj_ok (plain_schema f) d -> Permutation order (map fst (plain_schema f)) ->
  In (t, ts) (plain_schema f) -> find_table db t = Some dt -> dt_rows dt <> [] ->
  exists p, mdb_write_file store key_free date_of bare can_create f false order d (Some db) = (false, p).
Proof. exact mdb_refuses. Qed.
Print Assumptions C132_refuses.

(** It does return if the tables are there with their fields, are empty or may be overwritten, their names can
    be written without brackets, and the file accepts every row. *)
Theorem C132_returns : forall store key_free date_of bare f can_create allow order d db new,
  decl_ok (f_decl f) = true -> no_generics f = true -> file_wf db -> obj_ok (plain_schema f) d -> all_found f db ->
  Permutation order (map fst (plain_schema f)) -> (forall t, In t order -> bare t = true) ->
  (allow = false -> forall t ts dt, In (t, ts) (plain_schema f) -> find_table db t = Some dt -> dt_rows dt = []) ->
  (forall t ts dt, In (t, ts) (plain_schema f) -> find_table db t = Some dt ->
     Forall2 (row_as store (mdb_cell date_of f t ts) ts dt) (full_rows (d t)) (new t) /\ keys_ok key_free dt (new t)) ->
  exists db', mdb_write_file store key_free date_of bare can_create f allow order d (Some db) = (true, Some db').
Proof. exact mdb_succeeds. Qed.
Print Assumptions C132_returns.

Example C132_ex : 
  fw_mdb true fw_order fw_obj (Some fw_db) = (true, Some fw_mfull) /\ Permutation fw_order (map fst (plain_schema wp_fac)) /\
  find_table fw_mfull "old" = find_table fw_db "old" /\
  find_table fw_mfull "parent" = Some (mkDT [mkDC "Day" "TEXT" VNone; mkDC "Code" "TEXT" VNone; mkDC "Cap" "REAL" VNone] ["Code"]
    [[VStr "2020-01-01"; VStr "b"; int 1000]; [VStr "2020-01-01"; VStr "a"; int 999]]) /\
  exists now, fw_mdb true fw_order fw_bad (Some fw_db) = (false, Some now) /\
    find_table now "child" = find_table fw_mfull "child" /\ find_table now "parent" = find_table fw_db "parent".
Proof.
  refine (conj _ (conj fw_order_ok (conj _ (conj _ _)))).
  - apply done_ok. vm_compute; reflexivity.
  - vm_compute; reflexivity.
  - vm_compute; reflexivity.
  - eexists. refine (conj _ (conj _ _)); vm_compute; reflexivity.
Qed.

(** ** C133 Access: round trip through a file *)

Theorem C133_round_trip : forall store key_free date_of float_of bare f can_create allow order d db db2 db3,
  decl_ok (f_decl f) = true -> file_wf db -> Permutation order (map fst (plain_schema f)) ->
  obj_ok (plain_schema f) d -> obj_keys (plain_schema f) d -> proper_keys (plain_schema f) d ->
  cells_kept f (file_trip store f (general_read date_of float_of) (mdb_cell date_of f) db) d ->
  params_kept date_of float_of f (file_trip store f (general_read date_of float_of) (mdb_cell date_of f) db) d ->
  mdb_write_file store key_free date_of bare can_create f allow order d (Some db) = (true, Some db2) -> same_file db2 db3 ->
  exists e, mdb_read_file date_of float_of f db3 = Ret e /\ forall t ts, In (t, ts) (plain_schema f) -> reordered (e t) (d t).
Proof.
  intros store key_free date_of float_of bare f can_create allow order d db db2 db3 Hd Hwf P Hok Hk Hp Hc Hpa Hw Hs.
  apply mdb_written in Hw as (db' & E & A & B & _); auto. injection E as <-. eapply file_round_trip; eauto.
Qed.
Print Assumptions C133_round_trip.

(** The same through a file made by [write_schema] (with its types), or by the call itself. *)
Theorem C133_new_file : forall store key_free date_of float_of bare f types allow order order' d p db2 db3,
  decl_ok (f_decl f) = true -> no_generics f = true -> mdb_types_ok f types = true ->
  Permutation order (map fst (plain_schema f)) -> Permutation order' (map fst (plain_schema f)) ->
  obj_ok (plain_schema f) d -> obj_keys (plain_schema f) d -> proper_keys (plain_schema f) d ->
  let trip := fun t ts x v w => forall u s, mdb_cell date_of f t ts x v = Ret u ->
    store (mdb_type f types t x (if mem_str x (tdf ts) then "double" else "text")) u = Some s -> general_read date_of float_of f t x s = Ret w in
  cells_kept f trip d -> params_kept date_of float_of f trip d ->
  (p = snd (mdb_write_schema true f types order None) \/ types = [] /\ p = None) ->
  mdb_write_file store key_free date_of bare true f allow order' d p = (true, Some db2) -> same_file db2 db3 ->
  exists e, mdb_read_file date_of float_of f db3 = Ret e /\ forall t ts, In (t, ts) (plain_schema f) -> reordered (e t) (d t).
Proof.
  intros store key_free date_of float_of bare f types allow order order' d p db2 db3 Hd Hg Hty P P' Hok Hk Hp trip Hc Hpa Hor Hw Hs.
  assert (exists db, (forall t ts, In (t, ts) (plain_schema f) -> find_table db t = Some (mdb_table f types t ts)) /\ file_wf db /\
            mdb_write_file store key_free date_of bare true f allow order' d (Some db) = (true, Some db2)) as (db & Hmk & Hwf & Hw').
  { destruct Hor as [-> | [-> ->]].
    - destruct (mdb_new_file store key_free date_of bare f true types order Hd Hg Hty P) as [_ N]. destruct (N eq_refl) as (db & E & _ & W & M & _). rewrite E in Hw. cbn [snd] in Hw. eauto.
    - destruct (mdb_new_file store key_free date_of bare f true [] order' Hd Hg Hty P') as [_ N]. destruct (N eq_refl) as (db & E & _ & W & M & _).
      rewrite (mdb_write_new store key_free date_of bare f true allow order' d Hg db E) in Hw. eauto. }
  assert (forall t ts x v w, In (t, ts) (plain_schema f) -> In x (tfields ts) -> trip t ts x v w ->
    file_trip store f (general_read date_of float_of) (mdb_cell date_of f) db t ts x v w) as Q.
  { intros t ts x v w Hin Hx H dt c F Hcol Hlow u s Hu Hst. rewrite (Hmk _ _ Hin) in F. injection F as <-. cbn [mdb_table dt_cols] in Hcol.
    pose proof (proj2 (CsvMore.plain_fields f t ts Hd Hin)) as Hnd.
    assert (forall y, In y (tfields ts) -> lower y = lower x -> y = x) as Hinj.
    { intros y Hy El. eapply (ListFacts.NoDup_map_inj_in lower); eauto. }
    apply (H u s); auto. rewrite <- Hst. f_equal. unfold tfields in *. apply in_app_or in Hcol as [Hcol | Hcol]; apply in_map_iff in Hcol as (y & <- & Hy); cbn [dc_name dc_type] in *.
    - assert (y = x) as -> by (apply Hinj; auto; apply in_or_app; auto). destruct (mem_str x (tdf ts)) eqn:M; auto. apply GraphFacts.mem_str_iff in M. exfalso.
      rewrite map_app in Hnd. apply (ListFacts.NoDup_app_disj _ _ (lower x) Hnd); now apply in_map.
    - assert (y = x) as -> by (apply Hinj; auto; apply in_or_app; auto). apply GraphFacts.mem_str_iff in Hy. now rewrite Hy. }
  eapply C133_round_trip; [exact Hd | exact Hwf | exact P' | exact Hok | exact Hk | exact Hp | | | exact Hw' | exact Hs].
  - intros t ts r x v Hin Hne Hr Hx. apply Q; auto. { eapply in_combine_l; eauto. } eapply Hc; eauto.
  - intros Hpp ts Hin. destruct (Hpa Hpp ts Hin) as (a & b & l & -> & E & H). exists a, b, l. split; auto. split; auto. intros k r Hkr.
    destruct (H k r Hkr) as (a' & v & w & E1 & E2 & T1 & T2 & E3). exists a', v, w. split; auto. split; auto.
    split; [apply Q; auto; simpl; auto |]. split; [apply Q; auto; simpl; auto | auto].
Qed.
Print Assumptions C133_new_file.

Example C133_ex : exists e,
  file_wf fw_db /\ cells_kept wp_fac (file_trip fw_store wp_fac fw_mread fw_mW fw_db) fw_obj /\
  params_kept wi_date wi_float wp_fac (file_trip fw_store wp_fac fw_mread fw_mW fw_db) fw_obj /\
  fw_mdb true fw_order fw_obj (Some fw_db) = (true, Some fw_mfull) /\ same_file fw_mfull (moved fw_mfull) /\
  mdb_read_file wi_date wi_float wp_fac (moved fw_mfull) = Ret e /\
  e "child" = OKeyed [(KTup [VStr "b"; int 1], [int 3]); (KTup [VStr "a"; int 1], [int 2])] /\
  e "log" = OListed [[VStr "it's"; int 1]; [VStr "it's"; int 1]].
Proof.
  eexists. refine (conj _ (conj _ (conj _ (conj _ (conj _ (conj _ (conj _ _))))))).
  - apply file_wf_ok. vm_compute; reflexivity.
  - apply file_cells_ok. vm_compute; reflexivity.
  - apply fw_params; vm_compute; reflexivity.
  - apply done_ok. vm_compute; reflexivity.
  - apply moved_ok. vm_compute; reflexivity.
  - vm_compute; reflexivity.
  - vm_compute; reflexivity.
  - vm_compute; reflexivity.
Qed.

(** ** C134 Access: write_schema *)

(** A new file has the tables of the schema and no others: text keys, double data, text for the
    parameters, unless other types are given. *)
Theorem C134_new_file : forall f types order, decl_ok (f_decl f) = true -> no_generics f = true -> mdb_types_ok f types = true ->
  Permutation order (map fst (plain_schema f)) ->
  mdb_write_schema false f types order None = (false, None) /\
  exists db, mdb_write_schema true f types order None = (true, Some db) /\
    (forall n, (forall t, In t (map fst (plain_schema f)) -> lower t <> lower n) -> find_table db n = None) /\
    forall t ts, In (t, ts) (plain_schema f) -> exists dt, find_table db t = Some dt /\
      map dc_name (dt_cols dt) = tfields ts /\ dt_key dt = tpk ts /\ dt_rows dt = [] /\
      forall c, In c (dt_cols dt) ->
        (forall ty, dget2 types t (dc_name c) = Some ty -> dc_type c = ty /\ In ty ["text"; "double"; "int"]) /\
        (dget2 types t (dc_name c) = None -> t = "parameters" /\ has_params f = true -> dc_type c = "text") /\
        (dget2 types t (dc_name c) = None -> t <> "parameters" \/ has_params f = false ->
           (In (dc_name c) (tpk ts) -> dc_type c = "text") /\ (In (dc_name c) (tdf ts) -> dc_type c = "double")).
Proof.
  intros f types order Hd Hg Hty P. split; [apply (mdb_new_file (fun _ _ => None) (fun _ _ => true) (fun _ => None) (fun _ => true) f false types order Hd Hg Hty P); auto |].
  destruct (mdb_new_file (fun _ _ => None) (fun _ _ => true) (fun _ => None) (fun _ => true) f true types order Hd Hg Hty P) as [_ N]. destruct (N eq_refl) as (db & E & _ & _ & M & O). exists db. split; auto. split; auto.
  intros t ts Hin. exists (mdb_table f types t ts). split; auto. split; [apply mdb_cols |]. split; auto. split; auto. intros c Hc.
  assert (exists dflt, dc_type c = mdb_type f types t (dc_name c) dflt /\ (In (dc_name c) (tpk ts) /\ dflt = "text" \/ In (dc_name c) (tdf ts) /\ dflt = "double")) as (dflt & Ec & Hdf).
  { cbn [mdb_table dt_cols] in Hc. apply in_app_or in Hc as [Hc | Hc]; apply in_map_iff in Hc as (x & <- & Hx); eexists; split; try reflexivity; auto. }
  assert (NoDup (tpk ts ++ tdf ts)) as Hnd. { apply (ObjRows.plain_wf f Hd) in Hin. exact Hin. }
  rewrite Ec. unfold mdb_type. split; [| split].
  - intros ty E1. rewrite E1. split; auto. unfold dget2, dget_or in E1. destruct (dget String.eqb types t) as [l |] eqn:E2; [| discriminate].
    unfold mdb_types_ok in Hty. rewrite forallb_forall in Hty. apply PyDictFacts.dget_In in E2 as (t' & A & E2). apply String.eqb_eq in A. subst t'.
    specialize (Hty _ E2). apply andb_true_iff in Hty as [_ Hty]. cbn [snd] in Hty. rewrite forallb_forall in Hty.
    apply PyDictFacts.dget_In in E1 as (x' & A & E1). specialize (Hty _ E1). apply andb_true_iff in Hty as [_ Hty]. now apply GraphFacts.mem_str_iff in Hty.
  - intros -> [-> ->]. reflexivity.
  - intros -> Hn. assert (String.eqb t "parameters" && has_params f = false) as ->.
    { destruct Hn as [Hn | ->]; [| apply andb_false_r]. apply String.eqb_neq in Hn. now rewrite Hn. }
    split; intros Hx; destruct Hdf as [[H1 ->] | [H1 ->]]; auto; exfalso; eapply (ListFacts.NoDup_app_disj _ _ _ Hnd); eauto.
Qed.
Print Assumptions C134_new_file.

(** Bad types, and generic tables, are refused before anything is done. *)
Theorem C134_refuses : forall can_create f types order path,
  no_generics f = false \/ (exists t l, In (t, l) types /\ (is_table f t = false \/ exists x ty, In (x, ty) l /\
     (~ In x (tfields (ts_of (plain_schema f) t)) \/ ~ In ty ["text"; "double"; "int"]))) ->
  mdb_write_schema can_create f types order path = (false, path).
Proof.
  intros can_create f types order path H. unfold mdb_write_schema. assert (no_generics f && mdb_types_ok f types = false) as ->; auto.
  destruct H as [-> | (t & l & Hin & H)]; auto. apply andb_false_intro2. apply not_true_iff_false. intros Q. unfold mdb_types_ok in Q. rewrite forallb_forall in Q.
  specialize (Q _ Hin). cbn [fst snd] in Q. apply andb_true_iff in Q as [Q1 Q2]. destruct H as [H | (x & ty & Hx & H)]; [congruence |].
  rewrite forallb_forall in Q2. specialize (Q2 _ Hx). cbn [fst snd] in Q2. apply andb_true_iff in Q2 as [Q2 Q3].
  apply GraphFacts.mem_str_iff in Q2. apply GraphFacts.mem_str_iff in Q3. destruct H; contradiction.
Qed.
Print Assumptions C134_refuses.

(** In a file that exists the tables are made one after another until one is there already; what was there stays. *)
Theorem C134_file : forall can_create f types order db ok p, decl_ok (f_decl f) = true -> Permutation order (map fst (plain_schema f)) ->
  mdb_write_schema can_create f types order (Some db) = (ok, p) ->
  exists db', p = Some db' /\
    (forall n dt, find_table db n = Some dt -> find_table db' n = Some dt) /\
    (no_generics f = true -> mdb_types_ok f types = true ->
     exists made rest, order = made ++ rest /\
       (forall t ts, In t made -> In (t, ts) (plain_schema f) -> find_table db t = None /\ find_table db' t = Some (mdb_table f types t ts)) /\
       (forall n, (forall t, In t made -> lower t <> lower n) -> find_table db' n = find_table db n) /\
       (ok = true -> rest = []) /\
       (ok = false -> exists t rest' dt, rest = t :: rest' /\ find_table db t = Some dt)).
Proof. exact mdb_schema_file. Qed.
Print Assumptions C134_file.

Definition fw_types : list (string * list (string * string)) := [("child", [("No.", "int"); ("Amount", "text")])].

Example C134_ex : exists db dt now,
  no_generics wp_fac = true /\ mdb_types_ok wp_fac fw_types = true /\
  mdb_write_schema true wp_fac fw_types fw_order None = (true, Some db) /\ find_table db "child" = Some dt /\
  map dc_type (dt_cols dt) = ["text"; "int"; "text"] /\
  mdb_write_schema true wp_fac fw_types fw_order (Some [nth 2 fw_db ("", mkDT [] [] [])]) = (false, Some now) /\
  find_table now "log" = Some (mdb_table wp_fac fw_types "log" (mkT [] ["What"; "Amount"])) /\ find_table now "parameters" = None /\
  mdb_write_schema true wp_fac [("child", [("No.", "long")])] fw_order (Some fw_db) = (false, Some fw_db).
Proof.
  do 3 eexists. refine (conj _ (conj _ (conj _ (conj _ (conj _ (conj _ (conj _ (conj _ _)))))))); vm_compute; reflexivity.
Qed.
