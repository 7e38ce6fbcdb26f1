(** * Property theorems: C140-C145 (objects with generic tables in files).

    The oracles [date_of], [float_of], [show_num], [show_date] (conversions), [store], [key_free], [sql_default],
    [pragma_name] (SQLite) and [saved] (Excel) are arbitrary. *)
From Coq Require Import ZArith Bool List String Ascii Arith Permutation.
From Verif Require Import PyVal PyDict PyStr TypeDict Data FindTypes FK Obj ObjFacts ObjMore Factory InfIO Params Names NamesFacts Utils UtilsMore
  Json ObjRows TripFacts Sql Csv CsvMore Xls InfWitness JsonWitness CsvWitness FileDb FileDbFacts FileDbTrip FileDbWitness
  Generic GenericFacts GenericTrip GenericSql GenericMore GenericWitness.
Import ListNotations.
Local Open Scope string_scope.
Local Open Scope list_scope.

(** ** C140 CSV *)

(** In a new directory: a file per table with fields and per generic table with rows, called after the table,
    with the text of each value, whatever the flag. *)
Theorem C140_written : forall date_of show_num show_date f g headers pretty allow d,
  decl_ok (f_decl f) = true -> has_generics f = true -> frames_ok f g -> obj_ok (plain_schema f) d ->
  exists dir, gen_csv_save date_of show_num show_date f headers pretty allow [] g d = Ret dir /\
  forall name b file, In (name, b, file) dir <-> b = true /\
    ((exists t ts, In (t, Fields ts) (f_decl f) /\ name = append t ".csv" /\
       file = (if headers then [tfields ts] else []) ++ map (map (csv_text show_num show_date)) (full_rows (d t))) \/
     (exists t, In (t, Generic) (f_decl f) /\ g_rows (g t) <> [] /\ name = append t ".csv" /\
       file = (if headers then [g_cols (g t)] else []) ++ map (map (csv_text show_num show_date)) (g_rows (g t)))).
Proof.
  intros date_of show_num show_date f g headers pretty allow d Hd Hg Hfr Hok. exists (new_files show_num show_date f g headers d).
  split; [now apply gen_csv_written |]. intros name b file. unfold new_files. rewrite in_app_iff, !in_map_iff. split.
  - intros [([t ts] & E & Hin) | (t & E & Hin)]; injection E as <- <- <-; (split; [reflexivity |]).
    + left. exists t, ts. apply plain_In in Hin. cbn [fst snd]. unfold text_lines. destruct headers; auto.
    + right. exists t. apply filled_In in Hin as [Hin Hne]. apply generic_In in Hin. unfold text_lines. destruct headers; auto.
  - intros [-> [(t & ts & Hin & -> & ->) | (t & Hin & Hne & -> & ->)]].
    + left. exists (t, ts). apply plain_In in Hin. cbn [fst snd]. unfold text_lines. destruct headers; auto.
    + right. exists t. rewrite filled_In, generic_In. unfold text_lines. destruct headers; auto.
Qed.
Print Assumptions C140_written.

(** If each cell is read back from its text, what was written into a new directory is read back, and an empty generic table
    without its columns; other files and the order do not matter. *)
Theorem C140_round_trip : forall date_of float_of show_num show_date f g pretty allow d dir dir' others,
  decl_ok (f_decl f) = true -> has_generics f = true -> frames_ok f g ->
  obj_ok (plain_schema f) d -> obj_keys (plain_schema f) d -> proper_keys (plain_schema f) d ->
  cells_kept f (text_trip date_of float_of show_num show_date f) d ->
  params_kept date_of float_of f (text_trip date_of float_of show_num show_date f) d ->
  gen_cells_kept date_of float_of show_num show_date f g ->
  gen_csv_save date_of show_num show_date f true pretty allow [] g d = Ret dir ->
  Permutation dir' (dir ++ others) -> unrelated f others ->
  exists e l, gen_csv_create date_of float_of f true dir' = Ret (e, l) /\
    (forall t ts, In (t, ts) (plain_schema f) -> e t = d t) /\ map fst l = generic_tables f /\
    forall t fr, In (t, fr) l -> g_rows fr = g_rows (g t) /\ (g_rows (g t) <> [] -> g_cols fr = g_cols (g t)).
Proof.
  intros date_of float_of show_num show_date f g pretty allow d dir dir' others Hd Hg Hfr Hok Hks Hpr Hc Hp Hgc Hw P Ho.
  rewrite gen_csv_written in Hw; auto. injection Hw as <-.
  destruct (gen_csv_trip date_of float_of show_num show_date f g d Hd Hg Hfr Hok Hks Hpr Hc Hp Hgc dir' others P Ho) as (e & l & A & B & C & D).
  exists e, l. split; auto. split; auto. split; auto. intros t fr H. rewrite (D t fr H). unfold frame_from. destruct (g_rows (g t)); split; auto; try reflexivity; congruence.
Qed.
Print Assumptions C140_round_trip.

(** The rows of a generic table that is now empty are read from the old file, although overwriting was allowed. *)
Theorem C140_stale_refuted : exists date_of float_of show_num show_date f g1 g2 d dir1 dir2 e l fr,
  decl_ok (f_decl f) = true /\ frames_ok f g1 /\ frames_ok f g2 /\ obj_ok (plain_schema f) d /\
  gen_csv_save date_of show_num show_date f true false false [] g1 d = Ret dir1 /\
  gen_csv_save date_of show_num show_date f true false true dir1 g2 d = Ret dir2 /\
  gen_csv_create date_of float_of f true dir2 = Ret (e, l) /\
  In ("my_notes", fr) l /\ g_rows (g2 "my_notes") = [] /\ g_rows fr = g_rows (g1 "my_notes") /\ g_rows fr <> [].
Proof.
  destruct (wg_create true wg_dir) as [[e l] |] eqn:E; [| vm_compute in E; discriminate E].
  exists wi_date, wc_float, wc_num, wc_show, wg_fac, wg_g, wg_none, wg_obj, wg_dir, wg_dir, e, l, (wg_g "my_notes").
  refine (conj _ (conj (proj1 wg_frames) (conj (proj2 wg_frames) (conj (proj1 wg_ok) (conj _ (conj _ (conj E (conj _ (conj _ (conj _ _)))))))))).
  - vm_compute. reflexivity.
  - vm_compute. reflexivity.
  - vm_compute. reflexivity.
  - assert (l = [("my_notes", wg_g "my_notes"); ("extra", mkG [] [])]) as ->; [| simpl; auto].
    assert (match wg_create true wg_dir with Ret (_, l) => l | Raise => [] end = [("my_notes", wg_g "my_notes"); ("extra", mkG [] [])]) as H by (vm_compute; reflexivity).
    rewrite E in H. exact H.
  - reflexivity.
  - reflexivity.
  - discriminate.
Qed.
Print Assumptions C140_stale_refuted.

(** With [case_space_table_names] the names are not changed, though those of a factory without generic tables are. *)
Theorem C140_pretty_refuted : exists date_of show_num show_date f f2 g d dir dir2,
  decl_ok (f_decl f) = true /\ has_generics f = true /\ frames_ok f g /\ obj_ok (plain_schema f) d /\ init (free_decl f g) = Some f2 /\
  gen_csv_save date_of show_num show_date f true true false [] g d = Ret dir /\
  map (fun e => fst (fst e)) dir = ["my_items.csv"; "log.csv"; "my_notes.csv"] /\
  csv_save date_of show_num show_date f2 true true false [] (free_obj f g d) = Ret dir2 /\
  map (fun e => fst (fst e)) dir2 = ["My Items.csv"; "Log.csv"; "My Notes.csv"].
Proof.
  destruct (init (free_decl wg_fac wg_g)) as [f2 |] eqn:E; [| vm_compute in E; discriminate E].
  exists wi_date, wc_num, wc_show, wg_fac, f2, wg_g, wg_obj, wg_dir, (dir_of (csv_save wi_date wc_num wc_show f2 true true false [] (free_obj wg_fac wg_g wg_obj))).
  assert (f2 = match init (free_decl wg_fac wg_g) with Some f => f | None => wi_f0 end) as -> by (rewrite E; reflexivity). clear E.
  refine (conj _ (conj _ (conj (proj1 wg_frames) (conj (proj1 wg_ok) (conj _ (conj _ (conj _ (conj _ _)))))))); vm_compute; reflexivity.
Qed.
Print Assumptions C140_pretty_refuted.

(** The flag is 1000, and yet infinity is written as "inf". *)
Theorem C140_flag_refuted : exists date_of show_num show_date f g d dir file rows,
  decl_ok (f_decl f) = true /\ has_generics f = true /\ frames_ok f g /\ obj_ok (plain_schema f) d /\
  f_flag f = VNum (of_int 1000) /\ show_num (of_int 1000) = "1000" /\
  d "my_items" = OKeyed rows /\ In (KAtom (VStr "b"), [VNum PInf; VStr "x"]) rows /\
  gen_csv_save date_of show_num show_date f true false false [] g d = Ret dir /\
  In ("my_items.csv", true, file) dir /\ In ["b"; "inf"; "x"] file /\
  (forall r, In r file -> ~ In "1000" r).
Proof.
  exists wi_date, wc_num, wc_show, wg_fac, wg_g, wg_obj, wg_dir, [["Name"; "Cost"; "Code"]; ["b"; "inf"; "x"]; ["a"; "3"; "007"]],
    [(KAtom (VStr "b"), [VNum PInf; VStr "x"]); (KAtom (VStr "a"), [int 3; VStr "007"])].
  refine (conj _ (conj _ (conj (proj1 wg_frames) (conj (proj1 wg_ok) (conj _ (conj _ (conj _ (conj _ (conj _ (conj _ (conj _ _))))))))))).
  - vm_compute. reflexivity.
  - vm_compute. reflexivity.
  - vm_compute. reflexivity.
  - vm_compute. reflexivity.
  - reflexivity.
  - simpl. auto.
  - vm_compute. reflexivity.
  - assert (wg_dir = [("my_items.csv", true, [["Name"; "Cost"; "Code"]; ["b"; "inf"; "x"]; ["a"; "3"; "007"]]);
        ("log.csv", true, [["What"]; ["it's"]; ["done"]]);
        ("my_notes.csv", true, [["Who"; "Much"]; ["me"; "7"]; ["you"; "2"]; ["me"; "7"]])]) as -> by (vm_compute; reflexivity). simpl. auto.
  - simpl. auto.
  - intros r [<- | [<- | [<- | []]]]; simpl; intros H; repeat destruct H as [H | H]; try discriminate; auto.
Qed.
Print Assumptions C140_flag_refuted.

Example C140_ex :
  decl_ok (f_decl wg_fac) = true /\ has_generics wg_fac = true /\ frames_ok wg_fac wg_g /\
  obj_ok (plain_schema wg_fac) wg_obj /\ obj_keys (plain_schema wg_fac) wg_obj /\ proper_keys (plain_schema wg_fac) wg_obj /\
  cells_kept wg_fac (text_trip wi_date wc_float wc_num wc_show wg_fac) wg_obj /\
  params_kept wi_date wc_float wg_fac (text_trip wi_date wc_float wc_num wc_show wg_fac) wg_obj /\
  gen_cells_kept wi_date wc_float wc_num wc_show wg_fac wg_g /\
  wg_save true false false [] wg_g wg_obj = Ret wg_dir /\
  unrelated wg_fac [("readme.txt", true, [["hello"]])] /\
  match wg_create true (("readme.txt", true, [["hello"]]) :: rev wg_dir) with
  | Ret (e, l) => e "my_items" = wg_obj "my_items" /\ l = [("my_notes", wg_g "my_notes"); ("extra", mkG [] [])]
  | Raise => False
  end.
Proof.
  refine (conj _ (conj _ (conj (proj1 wg_frames) (conj (proj1 wg_ok) (conj (proj1 (proj2 wg_ok)) (conj (proj2 (proj2 wg_ok))
    (conj wg_text_cells (conj (no_params_kept _ _ _ _ _ _) (conj wg_text_gen (conj _ (conj _ _))))))))))).
  - vm_compute. reflexivity.
  - vm_compute. reflexivity.
  - vm_compute. reflexivity.
  - vm_compute. reflexivity.
  - intros n file t [H | []] Ht. injection H as <- <-. assert (map fst (f_decl wg_fac) = ["my_items"; "my_notes"; "log"; "extra"]) as E by (vm_compute; reflexivity).
    rewrite E in Ht. repeat (destruct Ht as [<- | Ht]; [vm_compute; discriminate |]). destruct Ht.
  - vm_compute. split; reflexivity.
Qed.

(** ** C141 SQLite: a new file *)

(** The tables of a file that is made: those with fields and the generic ones with rows.  Whatever the defaults of the
    factory, every data column has the type INT. *)
Theorem C141_new_file : forall date_of store key_free sql_default f g allow d p,
  decl_ok (f_decl f) = true -> has_generics f = true -> frames_ok f g -> obj_ok (plain_schema f) d ->
  gen_sql_write date_of store key_free sql_default f allow g d None = (true, p) ->
  exists db, p = Some db /\
    (forall t ts, In (t, Fields ts) (f_decl f) -> exists dt, find_table db t = Some dt /\
       map dc_name (dt_cols dt) = tfields ts /\ dt_key dt = tpk ts /\
       (forall c, In c (dt_cols dt) -> In (dc_name c) (tdf ts) -> dc_type c = "INT") /\
       Forall2 (row_as store (fun _ v => Ret (bare_cell ts v)) ts dt) (full_rows (d t)) (dt_rows dt)) /\
    (forall t, In (t, Generic) (f_decl f) -> g_rows (g t) <> [] -> exists dt, find_table db t = Some dt /\
       map dc_name (dt_cols dt) = g_cols (g t) /\ dt_key dt = [] /\
       (forall c, In c (dt_cols dt) -> dc_type c = "INT") /\
       Forall2 (row_as store (fun _ v => Ret v) (mkT [] (g_cols (g t))) dt) (g_rows (g t)) (dt_rows dt)) /\
    (forall t, In (t, Generic) (f_decl f) -> g_rows (g t) = [] -> find_table db t = None).
Proof. exact (fun a b c e => gen_sql_made a b c e (fun _ => true)). Qed.
Print Assumptions C141_new_file.

(** If each cell comes back from its column, the object comes back from a new file, however the file orders its rows. *)
Theorem C141_round_trip : forall date_of float_of store key_free sql_default pragma_name f g allow d p,
  decl_ok (f_decl f) = true -> has_generics f = true -> frames_ok f g ->
  obj_ok (plain_schema f) d -> obj_keys (plain_schema f) d -> proper_keys (plain_schema f) d ->
  cells_kept f (bare_trip date_of float_of store f) d -> params_kept date_of float_of f (bare_trip date_of float_of store f) d ->
  gen_cells_stored date_of float_of store f g ->
  (forall t, In t (generic_tables f) -> g_rows (g t) <> [] -> pragma_name t = true) ->
  gen_sql_write date_of store key_free sql_default f allow g d None = (true, p) ->
  exists db, p = Some db /\ forall db', same_file db db' ->
  exists e l, gen_sql_read date_of float_of pragma_name f db' = Ret (e, l) /\
    (forall t ts, In (t, ts) (plain_schema f) -> reordered (e t) (d t)) /\ map fst l = generic_tables f /\
    forall t fr, In (t, fr) l -> Permutation (g_rows fr) (g_rows (g t)) /\ (g_rows (g t) <> [] -> g_cols fr = g_cols (g t)).
Proof.
  intros date_of float_of store key_free sql_default pragma_name f g allow d p Hd Hg Hfr Hok Hks Hpr Hc Hp Hgc Hn Hw.
  destruct (gen_sql_trip date_of float_of store key_free sql_default pragma_name f g allow d p) as (db & E & H); auto.
  exists db. split; auto. intros db' Hs. destruct (H db' Hs) as (e & l & A & B & C & D). exists e, l. split; auto. split; auto. split; auto.
  intros t fr Hin. destruct (D t fr Hin) as [X Y]. split; auto. intros Hne. rewrite X. unfold frame_from. destruct (g_rows (g t)); [congruence | reflexivity].
Qed.
Print Assumptions C141_round_trip.

(** A field with a text default gets a column of type INT, which makes a number of a code; the column that the factory's
    own default asks for would keep it. *)
Theorem C141_types_refuted : exists date_of float_of store key_free sql_default pragma_name f g d db e l,
  decl_ok (f_decl f) = true /\ has_generics f = true /\ frames_ok f g /\ obj_ok (plain_schema f) d /\
  cell_default (f_defaults f) "my_items" "Code" = VStr "" /\
  store (sql_type f "my_items" "Code") (VStr "007") = Some (VStr "007") /\
  gen_sql_write date_of store key_free sql_default f false g d None = (true, Some db) /\
  gen_sql_read date_of float_of pragma_name f db = Ret (e, l) /\
  d "my_items" = OKeyed [(KAtom (VStr "b"), [VNum PInf; VStr "x"]); (KAtom (VStr "a"), [int 3; VStr "007"])] /\
  e "my_items" = OKeyed [(KAtom (VStr "b"), [VNum PInf; VStr "x"]); (KAtom (VStr "a"), [int 3; int 7])].
Proof.
  destruct (wg_read (fw_out (wg_iwrite false wg_g wg_obj None))) as [[e l] |] eqn:E; [| vm_compute in E; discriminate E].
  exists wi_date, wi_float, wg_store, fw_free, fw_default, wg_pragma, wg_fac, wg_g, wg_obj, (fw_out (wg_iwrite false wg_g wg_obj None)), e, l.
  refine (conj _ (conj _ (conj (proj1 wg_frames) (conj (proj1 wg_ok) (conj _ (conj _ (conj _ (conj E (conj _ _))))))))).
  - vm_compute. reflexivity.
  - vm_compute. reflexivity.
  - vm_compute. reflexivity.
  - vm_compute. reflexivity.
  - apply done_ok. vm_compute. reflexivity.
  - reflexivity.
  - assert (match wg_read (fw_out (wg_iwrite false wg_g wg_obj None)) with Ret (e, _) => e "my_items" | Raise => OListed [] end
      = OKeyed [(KAtom (VStr "b"), [VNum PInf; VStr "x"]); (KAtom (VStr "a"), [int 3; int 7])]) as H by (vm_compute; reflexivity).
    rewrite E in H. exact H.
Qed.
Print Assumptions C141_types_refuted.

Example C141_ex :
  cells_kept wg_fac (bare_trip wi_date wi_float fw_store wg_fac) wg_obj /\ gen_cells_stored wi_date wi_float fw_store wg_fac wg_g /\
  params_kept wi_date wi_float wg_fac (bare_trip wi_date wi_float fw_store wg_fac) wg_obj /\
  (forall t, In t (generic_tables wg_fac) -> g_rows (wg_g t) <> [] -> wg_pragma t = true) /\
  wg_write false wg_g wg_obj None = (true, Some wg_db) /\ same_file wg_db (moved wg_db) /\
  match wg_read (moved wg_db) with
  | Ret (e, l) => e "my_items" = OKeyed [(KAtom (VStr "a"), [int 3; VStr "007"]); (KAtom (VStr "b"), [VNum PInf; VStr "x"])] /\
      l = [("my_notes", mkG ["Who"; "Much"] [[VStr "me"; int 7]; [VStr "you"; int 2]; [VStr "me"; int 7]]); ("extra", mkG [] [])]
  | Raise => False
  end.
Proof.
  refine (conj wg_bare_cells (conj wg_bare_gen (conj (no_params_kept _ _ _ _ _ _) (conj _ (conj _ (conj _ _)))))).
  - vm_compute. reflexivity.
  - intros t Hin _. assert (generic_tables wg_fac = ["my_notes"; "extra"]) as E by (vm_compute; reflexivity). rewrite E in Hin.
    destruct Hin as [<- | [<- | []]]; reflexivity.
  - apply done_ok. vm_compute. reflexivity.
  - apply moved_file. assert (map lower (map fst wg_db) = ["my_items"; "log"; "my_notes"]) as -> by (vm_compute; reflexivity).
    repeat constructor; simpl; intros H; repeat destruct H as [H | H]; try discriminate H; auto.
  - vm_compute. split; reflexivity.
Qed.

(** ** C142 SQLite: a file that exists *)

(** What a write to a file that exists leaves in it. *)
Theorem C142_written : forall date_of store key_free sql_default f g allow d db p,
  decl_ok (f_decl f) = true -> has_generics f = true -> frames_ok f g -> obj_ok (plain_schema f) d ->
  gen_sql_write date_of store key_free sql_default f allow g d (Some db) = (true, p) ->
  exists db', p = Some db' /\
    (forall t ts, In (t, ts) (plain_schema f) -> exists dt rows, find_table db t = Some dt /\ find_table db' t = Some (set_rows dt rows) /\
       Forall2 (row_as store (fun _ v => Ret (bare_cell ts v)) ts dt) (full_rows (d t)) rows) /\
    (forall t, In t (generic_tables f) -> g_rows (g t) <> [] -> exists dt rows, find_table db t = Some dt /\ find_table db' t = Some (set_rows dt rows) /\
       Forall2 (row_as store (fun _ v => Ret v) (mkT [] (g_cols (g t))) dt) (g_rows (g t)) rows) /\
    (forall t, In t (generic_tables f) -> g_rows (g t) = [] -> find_table db' t = find_table db t).
Proof. exact (fun a b c e => gen_sql_old a b c e (fun _ => true)). Qed.
Print Assumptions C142_written.

(** The rows of a generic table that is now empty stay in the file although overwriting was allowed, and are read back. *)
Theorem C142_refuted : exists date_of float_of store key_free sql_default pragma_name f g1 g2 d db1 db2 e l fr,
  decl_ok (f_decl f) = true /\ frames_ok f g1 /\ frames_ok f g2 /\ obj_ok (plain_schema f) d /\
  gen_sql_write date_of store key_free sql_default f true g1 d None = (true, Some db1) /\
  gen_sql_write date_of store key_free sql_default f true g2 d (Some db1) = (true, Some db2) /\
  gen_sql_read date_of float_of pragma_name f db2 = Ret (e, l) /\
  In ("my_notes", fr) l /\ g_rows (g2 "my_notes") = [] /\ g_rows fr = g_rows (g1 "my_notes") /\ g_rows fr <> [].
Proof.
  set (db1 := fw_out (wg_write true wg_g wg_obj None)). set (db2 := fw_out (wg_write true wg_none wg_obj (Some db1))).
  destruct (wg_read db2) as [[e l] |] eqn:E; [| vm_compute in E; discriminate E].
  exists wi_date, wi_float, fw_store, fw_free, fw_default, wg_pragma, wg_fac, wg_g, wg_none, wg_obj, db1, db2, e, l, (wg_g "my_notes").
  refine (conj _ (conj (proj1 wg_frames) (conj (proj2 wg_frames) (conj (proj1 wg_ok) (conj _ (conj _ (conj E (conj _ (conj _ (conj _ _)))))))))).
  - vm_compute. reflexivity.
  - apply done_ok. vm_compute. reflexivity.
  - apply done_ok. vm_compute. reflexivity.
  - assert (match wg_read db2 with Ret (_, l) => l | Raise => [] end = [("my_notes", wg_g "my_notes"); ("extra", mkG [] [])]) as H by (vm_compute; reflexivity).
    rewrite E in H. change (l = [("my_notes", wg_g "my_notes"); ("extra", mkG [] [])]) in H. rewrite H. simpl. auto.
  - reflexivity.
  - reflexivity.
  - discriminate.
Qed.
Print Assumptions C142_refuted.

Example C142_ex :
  wg_write true wg_g wg_obj (Some (wg_spaced "my_notes")) = (false, Some (wg_spaced "my_notes")) /\
  done_b (wg_write true wg_g wg_obj (Some wg_db)) = true /\
  fw_out (wg_write true wg_g wg_obj (Some wg_db)) = wg_db /\
  wg_write false wg_g wg_obj (Some wg_db) = (false, Some wg_db).
Proof. refine (conj _ (conj _ (conj _ _))); vm_compute; reflexivity. Qed.

(** ** C143 SQLite: the name of a generic table in the file *)

(** A table with fields is found when the file has spaces for the underscores of its name; a generic table makes the call raise. *)
Theorem C143_refuted : exists date_of float_of pragma_name f (file : string -> filedb) e l,
  decl_ok (f_decl f) = true /\ In "my_notes" (generic_tables f) /\ pragma_name "my_notes" = true /\
  get_db_table (map fst (file "my notes")) "my_notes" = Ret (Some "my notes") /\
  get_db_table (map fst (file "my notes")) "my_items" = Ret (Some "my items") /\
  (forall t, file t = (t, snd (hd ("", mkDT [] [] []) (file ""))) :: tl (file "")) /\
  gen_sql_read date_of float_of pragma_name f (file "my_notes") = Ret (e, l) /\
  e "my_items" = OKeyed [(KAtom (VStr "b"), [int 3; VStr "x"])] /\ In ("my_notes", mkG ["Who"; "Much"] [[VStr "me"; int 7]]) l /\
  sql_read_file date_of float_of f (file "my notes") <> Raise /\
  gen_sql_read date_of float_of pragma_name f (file "my notes") = Raise.
Proof.
  destruct (wg_read (wg_spaced "my_notes")) as [[e l] |] eqn:E; [| vm_compute in E; discriminate E].
  exists wi_date, wi_float, wg_pragma, wg_fac, wg_spaced, e, l.
  assert (match wg_read (wg_spaced "my_notes") with Ret (e, l) => Some (e "my_items", l) | Raise => None end
    = Some (OKeyed [(KAtom (VStr "b"), [int 3; VStr "x"])], [("my_notes", mkG ["Who"; "Much"] [[VStr "me"; int 7]]); ("extra", mkG [] [])])) as H by (vm_compute; reflexivity).
  rewrite E in H. cbv iota in H. pose proof (f_equal (fun o => match o with Some p => fst p | None => OListed [] end) H) as H1.
  pose proof (f_equal (fun o => match o with Some p => snd p | None => [] end) H) as H2. cbv beta iota in H1, H2. cbn [fst snd] in H1, H2. clear H.
  refine (conj _ (conj _ (conj _ (conj _ (conj _ (conj _ (conj E (conj H1 (conj _ (conj _ _)))))))))).
  - vm_compute. reflexivity.
  - vm_compute. auto.
  - reflexivity.
  - vm_compute. reflexivity.
  - vm_compute. reflexivity.
  - reflexivity.
  - rewrite H2. simpl. auto.
  - intros X. vm_compute in X. discriminate X.
  - vm_compute. reflexivity.
Qed.
Print Assumptions C143_refuted.

(** In general: a generic table that the file has under a name that differs from its own in more than case, or whose name
    cannot stand without brackets, makes reading fail. *)
Theorem C143_other_name : forall date_of float_of pragma_name f db t n,
  In (t, Generic) (f_decl f) -> get_db_table (map fst db) t = Ret (Some n) ->
  (forall n' dt, In (n', dt) db -> lower n' <> lower t) \/ pragma_name t = false ->
  gen_sql_read date_of float_of pragma_name f db = Raise.
Proof.
  intros date_of float_of pragma_name f db t n Hin Hn H. apply generic_In in Hin. apply (gen_sql_other_name date_of float_of pragma_name f db t n Hin Hn).
  destruct H as [H | H]; auto. left. apply PyDictFacts.dget_None. intros n' dt Hd. apply same_neq. now apply (H n' dt).
Qed.
Print Assumptions C143_other_name.

Example C143_ex :
  In ("my_notes", Generic) (f_decl wg_fac) /\ get_db_table (map fst (wg_spaced "My Notes")) "my_notes" = Ret (Some "my notes") /\
  (forall n' dt, In (n', dt) (wg_spaced "My Notes") -> lower n' <> lower "my_notes").
Proof.
  refine (conj _ (conj _ _)).
  - vm_compute. auto.
  - vm_compute. reflexivity.
  - intros n' dt [H | [H | [H | []]]]; injection H as <- _; vm_compute; discriminate.
Qed.

(** ** C144 SQL text files *)

(** A file written for an object with an empty generic table cannot be read by the same factory: the table is not created,
    with [include_schema] or without. *)
Theorem C144_no_table : forall f g include_schema t, decl_ok (f_decl f) = true -> In (t, Generic) (f_decl f) -> g_rows (g t) = [] ->
  ~ In t (gen_script_tables f include_schema g).
Proof. intros f g b t Hd Hin He. apply generic_In in Hin. exact (script_no_table (fun _ _ => None) (fun _ => true) f g b t Hd Hin He). Qed.
Print Assumptions C144_no_table.

Theorem C144_fails : forall date_of float_of pragma_name f g include_schema t db,
  decl_ok (f_decl f) = true -> In (t, Generic) (f_decl f) -> g_rows (g t) = [] ->
  (forall n dt, In (n, dt) db -> exists u, (In u (map fst (plain_schema f)) \/ In u (gen_script_tables f include_schema g)) /\ lower u = lower n) ->
  gen_con_frames date_of float_of pragma_name f db = Raise.
Proof. intros date_of float_of pragma_name f g b t db Hd Hin He Hdb. apply generic_In in Hin. eapply gen_script_fails; eauto. Qed.
Print Assumptions C144_fails.

Theorem C144_refuted : exists date_of float_of pragma_name f g (db : filedb),
  decl_ok (f_decl f) = true /\ has_generics f = true /\ frames_ok f g /\
  gen_script_tables f true g = ["my_items"; "log"; "my_notes"] /\ map fst db = gen_script_tables f true g /\
  (forall t, pragma_name t = true) /\
  gen_con_frames date_of float_of pragma_name f db = Raise.
Proof.
  exists wi_date, wi_float, (fun _ => true), wg_fac, wg_g, wg_db.
  refine (conj _ (conj _ (conj (proj1 wg_frames) (conj _ (conj _ (conj _ _)))))); vm_compute; reflexivity.
Qed.
Print Assumptions C144_refuted.

(** Where every generic table is in the database under its name, with rows that are read back, they are read. *)
Theorem C144_read : forall date_of float_of pragma_name f (g : generics) db,
  (forall t, In (t, Generic) (f_decl f) -> pragma_name t = true /\ g_rows (g t) <> [] /\ exists dt, find_table db t = Some dt /\
     map dc_name (dt_cols dt) = g_cols (g t) /\ NoDup (map lower (g_cols (g t))) /\
     Forall2 (fun s r => List.length s = List.length (g_cols (g t)) /\
                Forall2 (fun xs v => read_data_cell date_of float_of f t (fst xs) (snd xs) = Ret v) (combine (g_cols (g t)) s) r) (dt_rows dt) (g_rows (g t))) ->
  gen_con_frames date_of float_of pragma_name f db = Ret (map (fun t => (t, g t)) (generic_tables f)).
Proof. exact gen_con_read. Qed.
Print Assumptions C144_read.

Example C144_ex :
  In ("extra", Generic) (f_decl wg_fac) /\ g_rows (wg_g "extra") = [] /\
  gen_script_tables wg_fac false wg_g = ["my_notes"] /\
  (forall n dt, In (n, dt) wg_db -> exists u, (In u (map fst (plain_schema wg_fac)) \/ In u (gen_script_tables wg_fac true wg_g)) /\ lower u = lower n) /\
  gen_con_frames wi_date wi_float wg_pragma wg_half wg_db = Ret [("my_notes", wg_g "my_notes")].
Proof.
  refine (conj _ (conj eq_refl (conj _ (conj _ _)))).
  - vm_compute. auto.
  - vm_compute. reflexivity.
  - intros n dt Hin. apply (in_map fst) in Hin. assert (map fst wg_db = gen_script_tables wg_fac true wg_g) as E by (vm_compute; reflexivity).
    rewrite E in Hin. exists n. auto.
  - vm_compute. reflexivity.
Qed.

(** ** C145 Excel *)

(** A sheet per table with fields and per generic table with rows, with the values as they are, whatever the flag. *)
Theorem C145_written : forall date_of show_date saved f g xls pretty d book,
  decl_ok (f_decl f) = true -> has_generics f = true -> frames_ok f g -> obj_ok (plain_schema f) d ->
  gen_xls_write date_of show_date saved f xls pretty g d = Ret book ->
  map fst book = map (sheet_name pretty (map fst (plain_schema f) ++ filled f g)) (map fst (plain_schema f) ++ filled f g) /\
  Forall2 (fun tr ns => exists rows, snd ns = mkSheet 1 (map VStr (fst tr) :: rows) /\
      Forall2 (fun r r' => mapO (fun v => saved (plain_clean show_date xls v)) r = Ret r') (snd tr) rows)
    (map (fun tts : string * tschema => (tfields (snd tts), full_rows (d (fst tts)))) (plain_schema f) ++
     map (fun t => (g_cols (g t), g_rows (g t))) (filled f g)) book.
Proof. exact gen_xls_written. Qed.
Print Assumptions C145_written.

(** The flag is 1000; infinity is written as text and read back as text. *)
Theorem C145_refuted : exists date_of float_of show_date saved f g d book e,
  decl_ok (f_decl f) = true /\ has_generics f = true /\ frames_ok f g /\ obj_ok (plain_schema f) d /\ f_flag f = VNum (of_int 1000) /\
  gen_xls_write date_of show_date saved f false false g d = Ret book /\
  xls_create date_of float_of f (mkBook None book) true true (fun _ => 0) = Ret e /\
  d "my_items" = OKeyed [(KAtom (VStr "b"), [VNum PInf; VStr "x"]); (KAtom (VStr "a"), [int 3; VStr "007"])] /\
  e "my_items" = OKeyed [(KAtom (VStr "b"), [VStr "inf"; VStr "x"]); (KAtom (VStr "a"), [int 3; VStr "007"])].
Proof.
  set (o := gen_xls_write wi_date wc_show wx_saved wg_fac false false wg_g wg_obj).
  set (book := match o with Ret b => b | Raise => [] end).
  destruct (xls_create wi_date wc_float wg_fac (mkBook None book) true true (fun _ => 0)) as [e |] eqn:E; [| vm_compute in E; discriminate E].
  exists wi_date, wc_float, wc_show, wx_saved, wg_fac, wg_g, wg_obj, book, e.
  refine (conj _ (conj _ (conj (proj1 wg_frames) (conj (proj1 wg_ok) (conj _ (conj _ (conj E (conj _ _)))))))).
  - vm_compute. reflexivity.
  - vm_compute. reflexivity.
  - vm_compute. reflexivity.
  - vm_compute. reflexivity.
  - reflexivity.
  - assert (match xls_create wi_date wc_float wg_fac (mkBook None book) true true (fun _ => 0) with Ret e => e "my_items" | Raise => OListed [] end
      = OKeyed [(KAtom (VStr "b"), [VStr "inf"; VStr "x"]); (KAtom (VStr "a"), [int 3; VStr "007"])]) as H by (vm_compute; reflexivity).
    rewrite E in H. exact H.
Qed.
Print Assumptions C145_refuted.

Example C145_ex :
  match gen_xls_write wi_date wc_show wx_saved wg_fac false true wg_g wg_obj with
  | Ret book => map fst book = ["My Items"; "Log"; "My Notes"] /\
      option_map sh_rows (dget String.eqb book "My Items") = Some [[VStr "Name"; VStr "Cost"; VStr "Code"]; [VStr "b"; VStr "inf"; VStr "x"]; [VStr "a"; int 3; VStr "007"]]
  | Raise => False
  end.
Proof. vm_compute. split; reflexivity. Qed.
