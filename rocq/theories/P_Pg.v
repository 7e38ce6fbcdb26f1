(** * Property theorems: C102-C109 (Postgres). *)
From Coq Require Import ZArith Bool List String Ascii Permutation.
From Verif Require Import PyVal PyValFacts PyDict PyStr TypeDict Data FindTypes FK Graph GraphFacts Obj ObjFacts ObjMore WfCheck Factory InfIO InfIOFacts Params Names
  Utils UtilsMore Json ObjRows TripFacts Pg PgFacts PgSchema PgWrite PgTrip PgRead PgStore PgMore PgDefaults PgWitness InfWitness JsonWitness.
Import ListNotations.
Local Open Scope string_scope.
Local Open Scope list_scope.

(** The oracles, in this order: the text Postgres stores for a value that is no
    text; the number, stamp, boolean it finds in a text; what it stores for a
    number in an integer and in a float column; the other column types. *)

(** ** C102 Columns *)

Theorem C102_schema : forall pg_text pg_num pg_stamp pg_bool pg_int pg_float pg_other f forced db db',
  decl_ok (f_decl f) = true -> fks_within (f_fks f) (map fst (plain_schema f)) ->
  write_schema pg_text pg_num pg_stamp pg_bool pg_int pg_float pg_other f forced true db = Ret db' ->
  (forall t, ~ In t (map fst (plain_schema f)) -> dget String.eqb db' t = dget String.eqb db t) /\
  forall t ts, In (t, ts) (plain_schema f) -> dget String.eqb db t = None /\ exists pt, dget String.eqb db' t = Some pt /\
    map c_name (pt_cols pt) = map pg_name (tfields ts) /\ NoDup (map c_name (pt_cols pt)) /\ pt_key pt = map pg_name (tpk ts) /\ pt_rows pt = [] /\
    ((forall k, In k (f_fks f) -> NoDup (map fst (fk_map k)) /\ NoDup (map snd (fk_map k))) ->
     forall g, In g (pt_fks pt) <-> exists k, In k (f_fks f) /\ fk_native k = t /\ g_table g = fk_foreign k /\
       g_native g = map (fun nf => pg_name (fst nf)) (fk_map k) /\ g_foreign g = map (fun nf => pg_name (snd nf)) (fk_map k)) /\
    forall x, In x (tfields ts) -> exists c, In c (pt_cols pt) /\ c_name c = pg_name x /\ column_type f forced t ts x (c_type c) /\
      (c_notnull c = true <-> In x (tdf ts) /\ exists dt, field_type f t x = Some dt /\ nullable dt = false /\ (number_allowed dt = false \/ f_flag f <> VNone)) /\
      (In x (tpk ts) -> c_default c = None) /\
      (In x (tdf ts) -> dget tf_eqb forced (t, x) = None -> (forall dt, field_type f t x = Some dt -> datetime dt = false) ->
         default_clause f t x (c_default c)).
Proof. exact schema_declared. Qed.
Print Assumptions C102_schema.

(** [column_type] is a function, and total except for a declared type that
    allows both strings and numbers, or neither. *)
Theorem C102_types : forall f forced t ts x, forced_ok f forced = true ->
  (forall c c', column_type f forced t ts x c -> column_type f forced t ts x c' -> c = c') /\
  ((forall dt, field_type f t x = Some dt -> datetime dt = true \/ strs_truthy (strings_allowed dt) <> number_allowed dt) ->
   exists c, column_type f forced t ts x c).
Proof. exact types_total. Qed.
Print Assumptions C102_types.

Example C102_ex : exists pt c, decl_ok (f_decl wp_fac) = true /\ fks_within (f_fks wp_fac) (map fst (plain_schema wp_fac)) /\
  wp_schema wp_fac [] true wp_old = Ret wp_db /\ dget String.eqb wp_db "child" = Some pt /\
  In ("child", mkT ["Code"; "No."] ["Amount"]) (plain_schema wp_fac) /\ In c (pt_cols pt) /\ c_name c = "no_" /\ c_type c = CInteger /\
  pt_fks pt = [mkPgFk ["code"] "parent" ["code"]] /\
  (forall k, In k (f_fks wp_fac) -> NoDup (map fst (fk_map k)) /\ NoDup (map snd (fk_map k))).
Proof.
  eexists. exists (mkCol "no_" CInteger false None).
  refine (conj _ (conj wp_within (conj wp_made (conj _ (conj _ (conj _ (conj _ (conj _ (conj _ _))))))))).
  - vm_compute; reflexivity.
  - vm_compute; reflexivity.
  - rewrite wp_plain. simpl. auto.
  - simpl. auto.
  - reflexivity.
  - reflexivity.
  - reflexivity.
  - intros k Hk. vm_compute in Hk. destruct Hk as [<- | []]. split; now apply (nodup_b_ok String.eqb String.eqb_eq).
Qed.

(** The DEFAULT of a data field with a forced type or a datetime: none for
    bytea and for datetimes (except text forced with a string as default), the
    truth of the default for booleans, and otherwise the default as declared. *)
Theorem C102_defaults : forall pg_text pg_num pg_stamp pg_bool pg_int pg_float pg_other f forced db db' t ts pt x c,
  decl_ok (f_decl f) = true -> fks_within (f_fks f) (map fst (plain_schema f)) ->
  write_schema pg_text pg_num pg_stamp pg_bool pg_int pg_float pg_other f forced true db = Ret db' ->
  In (t, ts) (plain_schema f) -> dget String.eqb db' t = Some pt -> In x (tdf ts) -> In c (pt_cols pt) -> c_name c = pg_name x ->
  (forall s, dget tf_eqb forced (t, x) = Some "text" -> cell_default (f_defaults f) t x = VStr s -> default_clause f t x (c_default c)) /\
  (dget tf_eqb forced (t, x) = Some "bytea" -> c_default c = None) /\
  (forall dt, field_type f t x = Some dt -> datetime dt = true ->
     dget tf_eqb forced (t, x) <> Some "text" \/ (forall s, cell_default (f_defaults f) t x <> VStr s) -> c_default c = None) /\
  ((forall dt, field_type f t x = Some dt -> datetime dt = false) -> forall s, dget tf_eqb forced (t, x) = Some s ->
     (s = "bool" \/ s = "boolean" -> c_default c = Some (DBool (truthy (cell_default (f_defaults f) t x)))) /\
     (s <> "bool" -> s <> "boolean" -> s <> "bytea" -> default_clause f t x (c_default c))).
Proof. exact schema_defaults. Qed.
Print Assumptions C102_defaults.

Example C102_defaults_ex :
  match wp_schema wp_fac [(("child", "Amount"), "bool"); (("log", "What"), "text"); (("log", "Amount"), "bytea")] true wp_old with
  | Ret db' => option_map (fun pt => map c_default (pt_cols pt)) (dget String.eqb db' "child") = Some [None; None; Some (DBool false)] /\
               option_map (fun pt => map c_default (pt_cols pt)) (dget String.eqb db' "log") = Some [Some (DText "it''s"); None]
  | Raise => False
  end.
Proof. vm_compute. split; reflexivity. Qed.

(** Of two native fields that refer to the same foreign field only the last
    gets its foreign key. *)
Theorem C102_refuted : exists f k n x, decl_ok (f_decl f) = true /\ fks_within (f_fks f) (map fst (plain_schema f)) /\
  In k (f_fks f) /\ In (n, x) (fk_map k) /\
  forall pg_text pg_num pg_stamp pg_bool pg_int pg_float pg_other, exists db' pt,
    write_schema pg_text pg_num pg_stamp pg_bool pg_int pg_float pg_other f [] true [] = Ret db' /\
    dget String.eqb db' (fk_native k) = Some pt /\ forall g, In g (pt_fks pt) -> ~ In (pg_name n) (g_native g).
Proof.
  exists wp_twin, (mkFk "link" "node" [("Tail", "Name"); ("Head", "Name")]), "Tail", "Name".
  refine (conj _ (conj _ (conj _ (conj _ _)))).
  - vm_compute; reflexivity.
  - intros k [<- | []]. vm_compute. auto.
  - vm_compute. auto.
  - simpl. auto.
  - intros. eexists. eexists. refine (conj _ (conj _ _)); [vm_compute; reflexivity | vm_compute; reflexivity |].
    intros g [<- | []]. vm_compute. intros [E | []]. discriminate E.
Qed.
Print Assumptions C102_refuted.

(** ** C103 Schemas that can be created *)

(** Postgres refuses a foreign key to a part of a key, a default with a single
    quote, and a default of 0 for a time. *)
Theorem C103_refuted : exists f1 f2 f3 forced, 
  (forall f, In f [f1; f2; f3] -> decl_ok (f_decl f) = true /\ names_ok f = true /\ no_generics f = true) /\
  (exists k, f_fks f1 = [k] /\ fk_native k = "notes" /\ fk_foreign k = "orders" /\ fk_map k = [("Cust", "Cust")] /\
     In ("orders", mkT ["Cust"; "Item"] []) (plain_schema f1)) /\
  cell_default (f_defaults f2) "log" "What" = VStr "it's" /\ f_fks f2 = [] /\
  plain_schema f3 = [("log", mkT [] ["Moment"])] /\ f_fks f3 = [] /\ forced_ok f3 forced = true /\ forced = [(("log", "Moment"), "timestamp")] /\
  forall pg_text pg_num pg_stamp pg_bool pg_int pg_float pg_other,
    write_schema pg_text pg_num pg_stamp pg_bool pg_int pg_float pg_other f1 [] true [] = Raise /\
    write_schema pg_text pg_num pg_stamp pg_bool pg_int pg_float pg_other f2 [] true [] = Raise /\
    write_schema pg_text pg_num pg_stamp pg_bool pg_int pg_float pg_other f3 forced true [] = Raise.
Proof.
  exists wp_part, wp_quote, wp_when, [(("log", "Moment"), "timestamp")].
  refine (conj _ (conj _ (conj _ (conj _ (conj _ (conj _ (conj _ (conj eq_refl _)))))))).
  - intros f [<- | [<- | [<- | []]]]; (refine (conj _ (conj _ _)); vm_compute; reflexivity).
  - eexists. refine (conj _ (conj _ (conj _ (conj _ _)))); [vm_compute; reflexivity | reflexivity | reflexivity | reflexivity |]. vm_compute. auto.
  - vm_compute; reflexivity.
  - vm_compute; reflexivity.
  - vm_compute; reflexivity.
  - vm_compute; reflexivity.
  - vm_compute; reflexivity.
  - intros. refine (conj _ (conj _ _)); vm_compute; reflexivity.
Qed.
Print Assumptions C103_refuted.

(** It is enough that every field has a column type, every default fits it, and every foreign key refers to the whole key of another table, with
    comparable types and without circles. *)
Theorem C103_possible : forall pg_text pg_num pg_stamp pg_bool pg_int pg_float pg_other f forced db,
  decl_ok (f_decl f) = true -> fks_within (f_fks f) (map fst (plain_schema f)) ->
  names_ok f = true -> forced_ok f forced = true -> no_generics f = true ->
  (forall t, In t (map fst (plain_schema f)) -> dget String.eqb db t = None) ->
  (forall k, In k (f_fks f) -> fk_native k <> fk_foreign k -> ~ reaches (f_fks f) (fk_foreign k) (fk_native k)) ->
  (forall t ts x, In (t, ts) (plain_schema f) -> In x (tfields ts) -> exists c, column_type f forced t ts x c /\
     (In x (tdf ts) -> default_fits pg_int f forced t x c)) ->
  (forall k, In k (f_fks f) -> whole_key f forced k) ->
  exists db', write_schema pg_text pg_num pg_stamp pg_bool pg_int pg_float pg_other f forced true db = Ret db'.
Proof. exact schema_creatable. Qed.
Print Assumptions C103_possible.

Example C103_ex : names_ok wp_fac = true /\ forced_ok wp_fac [] = true /\ no_generics wp_fac = true /\
  (forall t, In t (map fst (plain_schema wp_fac)) -> dget String.eqb wp_old t = None) /\
  (forall k, In k (f_fks wp_fac) -> fk_native k <> fk_foreign k -> ~ reaches (f_fks wp_fac) (fk_foreign k) (fk_native k)) /\
  (forall t ts x, In (t, ts) (plain_schema wp_fac) -> In x (tfields ts) -> exists c, column_type wp_fac [] t ts x c /\
     (In x (tdf ts) -> default_fits wp_int wp_fac [] t x c)) /\
  (exists k, In k (f_fks wp_fac)) /\ (forall k, In k (f_fks wp_fac) -> whole_key wp_fac [] k) /\
  wp_schema wp_fac [] true wp_old = Ret wp_db.
Proof.
  refine (conj _ (conj _ (conj _ (conj _ (conj (fun k Hk _ => wp_no_circle k Hk) (conj wp_types (conj _ (conj wp_whole wp_made)))))))).
  - vm_compute; reflexivity.
  - vm_compute; reflexivity.
  - vm_compute; reflexivity.
  - rewrite wp_plain. intros t Ht. simpl in Ht. repeat (destruct Ht as [<- | Ht]; [reflexivity |]). contradiction.
  - eexists. vm_compute. left. reflexivity.
Qed.

(** ** C104 Without ancillary information *)

(** The column of the parameter values is text with, and float without. *)
Theorem C104_refuted : exists f db1 db2 pt1 pt2,
  decl_ok (f_decl f) = true /\ In ("parameters", mkT ["Key"] ["Value"]) (plain_schema f) /\
  forall pg_text pg_num pg_stamp pg_bool pg_int pg_float pg_other,
    write_schema pg_text pg_num pg_stamp pg_bool pg_int pg_float pg_other f [] true [] = Ret db1 /\
    write_schema pg_text pg_num pg_stamp pg_bool pg_int pg_float pg_other f [] false [] = Ret db2 /\
    dget String.eqb db1 "parameters" = Some pt1 /\ dget String.eqb db2 "parameters" = Some pt2 /\
    col_type pt1 "value" = Some CText /\ col_type pt2 "value" = Some CFloat.
Proof.
  exists wp_opts. do 4 eexists. refine (conj _ (conj _ _)); [vm_compute; reflexivity | vm_compute; auto |].
  intros. refine (conj _ (conj _ (conj _ (conj _ (conj _ _))))); vm_compute; reflexivity.
Qed.
Print Assumptions C104_refuted.

(** Everywhere else the columns have the same names and types; keys and foreign
    keys are gone. *)
Theorem C104_bare : forall pg_text pg_num pg_stamp pg_bool pg_int pg_float pg_other f forced db db',
  decl_ok (f_decl f) = true -> NoDup (map fst forced) ->
  write_schema pg_text pg_num pg_stamp pg_bool pg_int pg_float pg_other f forced false db = Ret db' ->
  names_ok f = true /\ forced_ok f forced = true /\ no_generics f = true /\
  (forall t, In t (map fst (plain_schema f)) -> dget String.eqb db t = None) /\
  (forall t, ~ In t (map fst (plain_schema f)) -> dget String.eqb db' t = dget String.eqb db t) /\
  forall t ts, In (t, ts) (plain_schema f) -> exists pt, dget String.eqb db' t = Some pt /\
    map c_name (pt_cols pt) = map pg_name (tfields ts) /\ pt_key pt = [] /\ pt_fks pt = [] /\ pt_rows pt = [] /\
    forall x, In x (tfields ts) -> exists c, In c (pt_cols pt) /\ c_name c = pg_name x /\
      c_notnull c = negb (pg_nullable f t x) /\
      (t <> "parameters" \/ f_params f = [] -> column_type f forced t ts x (c_type c)).
Proof. intros pg_text pg_num pg_stamp pg_bool pg_int pg_float pg_other f forced db db' Hd. exact (bare_written _ _ _ _ _ _ _ f Hd forced db db'). Qed.
Print Assumptions C104_bare.

Example C104_ex : exists db' pt, NoDup (map fst (nil : forced_types)) /\
  wp_schema wp_fac [] false wp_old = Ret db' /\ dget String.eqb db' "child" = Some pt /\
  map c_name (pt_cols pt) = ["code"; "no_"; "amount"] /\ map c_type (pt_cols pt) = [CText; CInteger; CFloat] /\ pt_key pt = [].
Proof. do 2 eexists. refine (conj (NoDup_nil _) (conj _ (conj _ (conj _ (conj _ _))))); vm_compute; reflexivity. Qed.

(** ** C105 Round trip *)

(** The key 1 of a field without a type comes back as the string 1. *)
Theorem C105_refuted : exists date_of float_of pg_text pg_num pg_stamp pg_bool pg_int pg_float pg_other f (d : obj) db db' e,
  decl_ok (f_decl f) = true /\ f_fks f = [] /\ obj_ok (plain_schema f) d /\ obj_keys (plain_schema f) d /\ proper_keys (plain_schema f) d /\
  write_schema pg_text pg_num pg_stamp pg_bool pg_int pg_float pg_other f [] true [] = Ret db /\
  write_data date_of pg_text pg_num pg_stamp pg_bool pg_int pg_float pg_other f false [] "" d db = (true, db') /\
  pg_create date_of float_of f "" db' = Ret e /\
  d "items" = OKeyed [(KAtom (int 1), [int 2])] /\ e "items" = OKeyed [(KAtom (VStr "1"), [int 2])].
Proof.
  exists wi_date, wi_float, wp_text, wp_num, wp_stamp, wp_bool, wp_int, wp_float, wp_other, wp_ids, wp_one, wp_ids_db, wp_ids_full. eexists.
  assert (obj_b (plain_schema wp_ids) wp_one = true) as H by (vm_compute; reflexivity). apply obj_b_ok in H as (H1 & H2 & H3).
  refine (conj _ (conj _ (conj H1 (conj H2 (conj H3 (conj _ (conj _ (conj _ (conj eq_refl _))))))))); vm_compute; reflexivity.
Qed.
Print Assumptions C105_refuted.

(** [pg_trip v w]: whatever is written for [v] and then stored by its column is
    read as [w].  If every cell comes back as it was (for parameters: after the
    adjustment by their types), and all tables are emptied first, the object
    read has the tables written up to the order of the rows, in whatever order
    the database returns them, with or without the active field. *)
Theorem C105_round_trip : forall date_of float_of pg_text pg_num pg_stamp pg_bool pg_int pg_float pg_other f auto pre active active' d db db2 db3,
  decl_ok (f_decl f) = true -> fks_within (f_fks f) (map fst (plain_schema f)) -> f_gens f = [] -> db_wf db ->
  obj_ok (plain_schema f) d -> obj_keys (plain_schema f) d -> proper_keys (plain_schema f) d ->
  (forall t ts, In (t, ts) (plain_schema f) -> deleted pre t = true) ->
  (active' = "" \/ active' = active /\ forall t pt c, dget String.eqb db t = Some pt -> In c (pt_cols pt) -> c_name c = active -> c_type c = CBool) ->
  cells_kept f (pg_trip date_of float_of pg_text pg_num pg_stamp pg_bool pg_int pg_float pg_other f db) d ->
  params_kept date_of float_of f (pg_trip date_of float_of pg_text pg_num pg_stamp pg_bool pg_int pg_float pg_other f db) d ->
  write_data date_of pg_text pg_num pg_stamp pg_bool pg_int pg_float pg_other f auto pre active d db = (true, db2) ->
  NoDup (map fst db3) -> same_rows db2 db3 ->
  exists e, pg_create date_of float_of f active' db3 = Ret e /\ forall t ts, In (t, ts) (plain_schema f) -> reordered (e t) (d t).
Proof. exact pg_round_trip. Qed.
Print Assumptions C105_round_trip.

(** [kept_by_column]: the column of the field can hold what is written for the
    cell (texts in text columns, numbers it need not round in numeric ones, ...). *)
Theorem C105_cells_na : forall date_of float_of pg_text pg_num pg_stamp pg_bool pg_int pg_float pg_other f db t ts x v,
  is_table f t = true -> t <> "parameters" -> f_flag f = VStr "N/A" ->
  kept date_of float_of f t x v -> kept_by_column date_of pg_int pg_float pg_other f db t x v ->
  pg_trip date_of float_of pg_text pg_num pg_stamp pg_bool pg_int pg_float pg_other f db t ts x v v.
Proof. exact pg_trip_na. Qed.
Print Assumptions C105_cells_na.

Theorem C105_cells_numeric : forall date_of float_of pg_text pg_num pg_stamp pg_bool pg_int pg_float pg_other f db t ts x v m,
  is_table f t = true -> t <> "parameters" -> f_flag f = VNum m -> good_flag (VNum m) = true ->
  kept date_of float_of f t x v ->
  (forall n, v = VNum n -> n = PInf \/ n = NInf ->
     kept date_of float_of f t x (VNum m) /\ kept date_of float_of f t x (VNum (num_opp m))) ->
  (forall n, v = VNum n -> n = PInf \/ n = NInf \/ within m n) ->
  kept_by_column date_of pg_int pg_float pg_other f db t x v ->
  pg_trip date_of float_of pg_text pg_num pg_stamp pg_bool pg_int pg_float pg_other f db t ts x v v.
Proof. exact pg_trip_numeric. Qed.
Print Assumptions C105_cells_numeric.

Theorem C105_cells_none : forall date_of float_of pg_text pg_num pg_stamp pg_bool pg_int pg_float pg_other f db t ts x v,
  is_table f t = true -> t <> "parameters" -> f_flag f = VNone ->
  kept date_of float_of f t x v ->
  (forall dt, field_type f t x = Some dt -> valid_data (is_date date_of) dt v = true) ->
  fst (write_cell date_of (mkIO f []) t x v) <> Raise ->
  kept_by_column date_of pg_int pg_float pg_other f db t x v ->
  pg_trip date_of float_of pg_text pg_num pg_stamp pg_bool pg_int pg_float pg_other f db t ts x v v.
Proof. exact pg_trip_none. Qed.
Print Assumptions C105_cells_none.

(** The cells that a column keeps are exactly those it stores unchanged. *)
Theorem C105_columns : forall pg_text pg_num pg_stamp pg_bool pg_int pg_float pg_other c v,
  column_keeps pg_int pg_float pg_other c v <-> coerce pg_text pg_num pg_stamp pg_bool pg_int pg_float pg_other c v = Some v.
Proof. exact keeps_spec. Qed.
Print Assumptions C105_columns.

Example C105_ex : exists e, wp_write wp_fac false [] "" wp_obj wp_db = (true, wp_full) /\ db_wf wp_db /\
  cells_kept wp_fac (pg_trip wi_date wi_float wp_text wp_num wp_stamp wp_bool wp_int wp_float wp_other wp_fac wp_db) wp_obj /\
  params_kept wi_date wi_float wp_fac (pg_trip wi_date wi_float wp_text wp_num wp_stamp wp_bool wp_int wp_float wp_other wp_fac wp_db) wp_obj /\
  same_rows wp_full wp_moved /\
  wp_read wp_fac "" wp_moved = Ret e /\
  e "child" = OKeyed [(KTup [VStr "b"; int 1], [int 3]); (KTup [VStr "a"; int 1], [int 2])] /\
  e "parameters" = OKeyed [(KAtom (VStr "Big"), [int 7])].
Proof.
  eexists. refine (conj wp_written (conj wp_db_wf (conj wp_cells (conj wp_params (conj (proj2 wp_same) (conj _ (conj _ _))))))); vm_compute; reflexivity.
Qed.

(** ** C106 What is written *)

(** A call that raises has emptied the tables. *)
Theorem C106_refuted : exists date_of pg_text pg_num pg_stamp pg_bool pg_int pg_float pg_other f (d : obj) db db' pt,
  decl_ok (f_decl f) = true /\ fks_within (f_fks f) (map fst (plain_schema f)) /\ db_wf db /\ obj_ok (plain_schema f) d /\
  write_data date_of pg_text pg_num pg_stamp pg_bool pg_int pg_float pg_other f false [] "" d db = (false, db') /\
  dget String.eqb db "parent" = Some pt /\ List.length (pt_rows pt) = 2 /\
  dget String.eqb db' "parent" = Some (with_rows pt []).
Proof.
  exists wi_date, wp_text, wp_num, wp_stamp, wp_bool, wp_int, wp_float, wp_other, wp_fac, wp_bad, wp_full. do 2 eexists.
  assert (obj_b (plain_schema wp_fac) wp_bad = true) as H by (vm_compute; reflexivity). apply obj_b_ok in H as (H1 & _ & _).
  refine (conj _ (conj wp_within (conj _ (conj H1 (conj _ (conj _ (conj _ _))))))).
  - vm_compute; reflexivity.
  - apply db_wf_ok. vm_compute; reflexivity.
  - vm_compute; reflexivity.
  - vm_compute; reflexivity.
  - vm_compute; reflexivity.
  - vm_compute; reflexivity.
Qed.
Print Assumptions C106_refuted.

(** A call that returns has replaced the rows of each table (or left them, with
    "append") and added one row for each row of the object, and has changed no
    other table. *)
Theorem C106_written : forall date_of pg_text pg_num pg_stamp pg_bool pg_int pg_float pg_other f auto pre active d db db',
  decl_ok (f_decl f) = true -> fks_within (f_fks f) (map fst (plain_schema f)) -> db_wf db -> obj_ok (plain_schema f) d ->
  write_data date_of pg_text pg_num pg_stamp pg_bool pg_int pg_float pg_other f auto pre active d db = (true, db') ->
  (forall t ts, In (t, ts) (plain_schema f) -> exists pt rows,
     dget String.eqb db t = Some pt /\
     dget String.eqb db' t = Some (with_rows pt ((if String.eqb (dget_or String.eqb pre t "delete") "delete" then [] else pt_rows pt) ++ rows)) /\
     Forall2 (stored_row date_of pg_text pg_num pg_stamp pg_bool pg_int pg_float pg_other f (act_of active db t) t ts pt) (full_rows (d t)) rows) /\
  forall t, ~ In t (map fst (plain_schema f)) -> dget String.eqb db' t = dget String.eqb db t.
Proof.
  intros date_of pg_text pg_num pg_stamp pg_bool pg_int pg_float pg_other f auto pre active d db db' Hd Hw.
  exact (write_exact _ _ _ _ _ _ _ _ f Hd Hw auto pre active d db db').
Qed.
Print Assumptions C106_written.

(** A call that raises leaves each table as it was or (unless it is appended to)
    empty, on a connection that does not commit by itself. *)
Theorem C106_failed : forall date_of pg_text pg_num pg_stamp pg_bool pg_int pg_float pg_other f auto pre active d db db',
  decl_ok (f_decl f) = true -> fks_within (f_fks f) (map fst (plain_schema f)) ->
  write_data date_of pg_text pg_num pg_stamp pg_bool pg_int pg_float pg_other f auto pre active d db = (false, db') ->
  forall t, match dget String.eqb db t with
            | None => dget String.eqb db' t = None
            | Some pt => exists rows, dget String.eqb db' t = Some (with_rows pt rows) /\
                (auto = false -> rows = pt_rows pt \/ rows = [] /\ deleted pre t = true /\ In t (map fst (plain_schema f))) /\
                (~ In t (map fst (plain_schema f)) -> rows = pt_rows pt) /\
                (deleted pre t = false -> exists new, rows = pt_rows pt ++ new)
            end.
Proof.
  intros date_of pg_text pg_num pg_stamp pg_bool pg_int pg_float pg_other f auto pre active d db db' Hd Hw.
  exact (write_data_fails _ _ _ _ _ _ _ _ f Hd Hw auto pre active d db db').
Qed.
Print Assumptions C106_failed.

(** Nothing is touched if a table or a column is missing, or an argument is bad. *)
Theorem C106_refused : forall date_of pg_text pg_num pg_stamp pg_bool pg_int pg_float pg_other f auto pre active d db,
  names_ok f = false \/ pg_name active <> active \/
  (exists t ts, In (t, ts) (plain_schema f) /\ (dget String.eqb db t = None \/
     exists pt x, dget String.eqb db t = Some pt /\ In x (tfields ts) /\ ~ In (pg_name x) (map c_name (pt_cols pt)))) \/
  (exists t v, In (t, v) pre /\ (is_table f t = false \/ v <> "delete" /\ v <> "append")) ->
  write_data date_of pg_text pg_num pg_stamp pg_bool pg_int pg_float pg_other f auto pre active d db = (false, db).
Proof. exact write_refused. Qed.
Print Assumptions C106_refused.

Example C106_ex : wp_write wp_fac false [] "" wp_obj wp_db = (true, wp_full) /\ db_wf wp_db /\ obj_ok (plain_schema wp_fac) wp_obj /\
  dget String.eqb wp_full "old" = dget String.eqb wp_old "old" /\
  fst (wp_write wp_fac false [("log", "append"); ("parent", "append")] "" wp_obj wp_full) = false /\
  exists db' pt, wp_write wp_fac false [("log", "append")] "" wp_obj wp_full = (true, db') /\ dget String.eqb db' "log" = Some pt /\
    pt_rows pt = repeat [VStr "it's"; int 1] 4.
Proof.
  refine (conj wp_written (conj wp_db_wf (conj (proj1 wp_ok) (conj _ (conj _ _))))); [vm_compute; reflexivity | vm_compute; reflexivity |].
  do 2 eexists. refine (conj _ (conj _ _)); vm_compute; reflexivity.
Qed.

(** ** C107 Data that can be written *)

(** Ann's boss is Bob, and comes before Bob. *)
Theorem C107_refuted : exists date_of pg_text pg_num pg_stamp pg_bool pg_int pg_float pg_other f (d : obj) db k pt,
  decl_ok (f_decl f) = true /\ fks_within (f_fks f) (map fst (plain_schema f)) /\
  obj_ok (plain_schema f) d /\ obj_keys (plain_schema f) d /\ proper_keys (plain_schema f) d /\
  f_fks f = [k] /\ fk_native k = "staff" /\ fk_foreign k = "staff" /\ fk_map k = [("Boss", "Id")] /\
  d "staff" = OKeyed [(KAtom (VStr "ann"), [VStr "bob"]); (KAtom (VStr "bob"), [VNone])] /\
  write_schema pg_text pg_num pg_stamp pg_bool pg_int pg_float pg_other f [] true [] = Ret db /\
  dget String.eqb db "staff" = Some pt /\
  (forall r, In r (full_rows (d "staff")) -> stored_row date_of pg_text pg_num pg_stamp pg_bool pg_int pg_float pg_other f None "staff" (mkT ["Id"] ["Boss"]) pt r r) /\
  write_data date_of pg_text pg_num pg_stamp pg_bool pg_int pg_float pg_other f false [] "" d db = (false, db).
Proof.
  exists wi_date, wp_text, wp_num, wp_stamp, wp_bool, wp_int, wp_float, wp_other, wp_staff, wp_team, wp_staff_db. do 2 eexists.
  assert (obj_b (plain_schema wp_staff) wp_team = true) as H by (vm_compute; reflexivity). apply obj_b_ok in H as (H1 & H2 & H3).
  refine (conj _ (conj _ (conj H1 (conj H2 (conj H3 (conj _ (conj _ (conj _ (conj _ (conj eq_refl (conj _ (conj _ (conj _ _))))))))))))).
  - vm_compute; reflexivity.
  - apply fks_within_ok. vm_compute; reflexivity.
  - vm_compute; reflexivity.
  - reflexivity.
  - reflexivity.
  - reflexivity.
  - vm_compute; reflexivity.
  - vm_compute; reflexivity.
  - intros r Hr. simpl in Hr. destruct Hr as [<- | [<- | []]]; (split; [reflexivity |]); intros c Hc; simpl in Hc;
      (destruct Hc as [<- | [<- | []]]; (split; [discriminate |]; split;
        [intros x v Hx; simpl in Hx; destruct Hx as [E | [E | []]]; injection E as <- <-; intros E; try discriminate E; eexists; split; vm_compute; reflexivity |
         intros Hno; exfalso; first [apply (Hno "Id"); [simpl; auto | reflexivity] | apply (Hno "Boss"); [simpl; auto | reflexivity]]])).
  - vm_compute; reflexivity.
Qed.
Print Assumptions C107_refuted.

(** Without circles among the tables (a table referring to itself is one), rows
    that can be stored, with keys distinct and without nulls and with foreign keys
    satisfied by what is there in the end, are written. *)
Theorem C107_possible : forall date_of pg_text pg_num pg_stamp pg_bool pg_int pg_float pg_other f auto pre active d db (store : string -> list (list value)),
  decl_ok (f_decl f) = true -> fks_within (f_fks f) (map fst (plain_schema f)) ->
  names_ok f = true -> no_generics f = true -> pg_name active = active -> db_wf db -> obj_ok (plain_schema f) d ->
  (forall t v, In (t, v) pre -> is_table f t = true /\ (v = "delete" \/ v = "append")) ->
  (forall t ts, In (t, ts) (plain_schema f) -> exists pt, dget String.eqb db t = Some pt /\
     (forall x, In x (tfields ts) -> In (pg_name x) (map c_name (pt_cols pt))) /\
     (act_of active db t = None \/ forall x, In x (tfields ts) -> pg_name x <> active) /\
     Forall2 (stored_row date_of pg_text pg_num pg_stamp pg_bool pg_int pg_float pg_other f (act_of active db t) t ts pt) (full_rows (d t)) (store t) /\
     (pt_key pt <> [] -> NoDup (map (fun r => pg_cells pt r (pt_key pt)) (kept_rows pre t pt ++ store t)) /\
        forall r x, In r (store t) -> In x (pt_key pt) -> pg_cell pt r x <> VNone) /\
     forall k, In k (pt_fks pt) ->
       (exists k0, In k0 (f_fks f) /\ fk_native k0 = t /\ fk_foreign k0 = g_table k) /\
       forall r, In r (store t) -> In VNone (pg_cells pt r (g_native k)) \/
         exists pu r', dget String.eqb db (g_table k) = Some pu /\ In r' (kept_rows pre (g_table k) pu ++ store (g_table k)) /\
           pg_cells pu r' (g_foreign k) = pg_cells pt r (g_native k)) ->
  (forall k, In k (f_fks f) -> ~ reaches (f_fks f) (fk_foreign k) (fk_native k)) ->
  (forall k, In k (f_fks f) -> dget_or String.eqb pre (fk_foreign k) "delete" = "delete" -> dget_or String.eqb pre (fk_native k) "delete" = "delete") ->
  (forall u pu k, In (u, pu) db -> ~ In u (map fst (plain_schema f)) -> In k (pt_fks pu) -> ~ In (g_table k) (map fst (plain_schema f))) ->
  exists db', write_data date_of pg_text pg_num pg_stamp pg_bool pg_int pg_float pg_other f auto pre active d db = (true, db').
Proof.
  intros date_of pg_text pg_num pg_stamp pg_bool pg_int pg_float pg_other f auto pre active d db store Hd Hw.
  exact (write_possible _ _ _ _ _ _ _ _ f Hd Hw auto pre active d db store).
Qed.
Print Assumptions C107_possible.

Example C107_ex : names_ok wp_fac = true /\ no_generics wp_fac = true /\ db_wf wp_db /\ obj_ok (plain_schema wp_fac) wp_obj /\
  (forall t ts, In (t, ts) (plain_schema wp_fac) -> exists pt, dget String.eqb wp_db t = Some pt /\
     (forall x, In x (tfields ts) -> In (pg_name x) (map c_name (pt_cols pt))) /\ act_of "" wp_db t = None /\
     Forall2 (stored_row wi_date wp_text wp_num wp_stamp wp_bool wp_int wp_float wp_other wp_fac None t ts pt) (full_rows (wp_obj t)) (wp_store t) /\
     (pt_key pt <> [] -> NoDup (map (fun r => pg_cells pt r (pt_key pt)) (wp_store t)) /\
        forall r x, In r (wp_store t) -> In x (pt_key pt) -> pg_cell pt r x <> VNone) /\
     forall k, In k (pt_fks pt) ->
       (exists k0, In k0 (f_fks wp_fac) /\ fk_native k0 = t /\ fk_foreign k0 = g_table k) /\
       forall r, In r (wp_store t) -> exists pu r', dget String.eqb wp_db (g_table k) = Some pu /\ In r' (wp_store (g_table k)) /\
           pg_cells pu r' (g_foreign k) = pg_cells pt r (g_native k)) /\
  (forall k, In k (f_fks wp_fac) -> ~ reaches (f_fks wp_fac) (fk_foreign k) (fk_native k)) /\
  wp_write wp_fac false [] "" wp_obj wp_db = (true, wp_full).
Proof. exact wp_writable. Qed.

(** ** C108 The active field *)

(** Reading with an active field is reading the database without the rows of
    which it is not true. *)
Theorem C108_read : forall date_of float_of f a db, a <> "" -> pg_name a = a -> NoDup (map fst db) ->
  pg_create date_of float_of f a db = pg_create date_of float_of f "" (only_active a db).
Proof. exact read_active. Qed.
Print Assumptions C108_read.

(** The rows written to a table that has the field are active. *)
Theorem C108_written : forall date_of pg_text pg_num pg_stamp pg_bool pg_int pg_float pg_other f auto pre active d db db' t ts pt c,
  decl_ok (f_decl f) = true -> fks_within (f_fks f) (map fst (plain_schema f)) -> db_wf db -> obj_ok (plain_schema f) d ->
  write_data date_of pg_text pg_num pg_stamp pg_bool pg_int pg_float pg_other f auto pre active d db = (true, db') ->
  In (t, ts) (plain_schema f) -> dget String.eqb db t = Some pt ->
  active <> "" -> In c (pt_cols pt) -> c_name c = active -> c_type c = CBool ->
  exists rows, dget String.eqb db' t = Some (with_rows pt (kept_rows pre t pt ++ rows)) /\ List.length rows = List.length (full_rows (d t)) /\
    forall r, In r rows -> pg_cell pt r active = VBool true.
Proof.
  intros date_of pg_text pg_num pg_stamp pg_bool pg_int pg_float pg_other f auto pre active d db db' t ts pt c Hd Hw.
  exact (write_marks _ _ _ _ _ _ _ _ f Hd Hw auto pre active d db db' t ts pt c).
Qed.
Print Assumptions C108_written.

Example C108_ex : exists e pt db' pt',
  wp_read wp_fac "active" wp_marked = Ret e /\ e "parent" = OKeyed [(KAtom (VStr "b"), [int 1; VDate 5])] /\
  dget String.eqb wp_marked "parent" = Some pt /\ In (mkCol "active" CBool false None) (pt_cols pt) /\ db_wf wp_marked /\
  wp_write wp_fac false [] "active" wp_obj wp_marked = (true, db') /\ dget String.eqb db' "parent" = Some pt' /\
  map (fun r => pg_cell pt' r "active") (pt_rows pt') = [VBool true; VBool true].
Proof.
  do 4 eexists. refine (conj _ (conj _ (conj _ (conj _ (conj _ (conj _ (conj _ _)))))));
    [vm_compute; reflexivity | vm_compute; reflexivity | vm_compute; reflexivity | simpl; auto | apply db_wf_ok; vm_compute; reflexivity |
     vm_compute; reflexivity | vm_compute; reflexivity | vm_compute; reflexivity].
Qed.

(** ** C109 Duplicates *)

(** [stored_keys]: the keys of the (active) rows of the table; [occurrences k]:
    how many of them are equal to [k]. *)
Theorem C109_exact : forall date_of float_of f a db, decl_ok (f_decl f) = true -> names_ok f = true -> pg_name a = a -> NoDup (map fst db) ->
  (forall t ts pt, In (t, ts) (plain_schema f) -> dget String.eqb db t = Some pt -> forall x, In x (tpk ts) -> In (pg_name x) (map c_name (pt_cols pt))) ->
  exists rep, pg_duplicates date_of float_of f a db = Ret rep /\
    (forall t d, In (t, d) rep -> d <> [] /\ (exists ts, In (t, ts) (plain_schema f) /\ tpk ts <> []) /\
       forall i j k m k' m', nth_error d i = Some (k, m) -> nth_error d j = Some (k', m') -> key_pyeq k k' = true -> i = j) /\
    forall t ts, In (t, ts) (plain_schema f) -> tpk ts <> [] ->
      forall k n, (exists d k', In (t, d) rep /\ In (k', n) d /\ key_pyeq k' k = true) <-> n = occurrences k (stored_keys a db t ts) /\ 1 < n.
Proof. exact duplicates_exact. Qed.
Print Assumptions C109_exact.

Example C109_ex : names_ok wp_fac = true /\ NoDup (map fst wp_twice) /\
  (forall t ts pt, In (t, ts) (plain_schema wp_fac) -> dget String.eqb wp_twice t = Some pt -> forall x, In x (tpk ts) -> In (pg_name x) (map c_name (pt_cols pt))) /\
  stored_keys "" wp_twice "child" (mkT ["Code"; "No."] ["Amount"]) = [[VStr "a"; int 1]; [VStr "a"; int 2]; [VStr "a"; int 1]] /\
  exists k, pg_duplicates wi_date wi_float wp_fac "" wp_twice = Ret [("child", [(k, 2)])] /\ key_pyeq k [VStr "a"; int 1] = true.
Proof. exact wp_twice_ok. Qed.
