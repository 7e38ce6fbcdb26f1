(** * Database files: SQLite (sqlitetd.py 149-213, 240-322, 323-356, create_tic_dat
    71-92, find_duplicates 112-128) and Access (mdb.py 39-50, 94-132, 133-171,
    184-209, 217-275, 276-334).

    A file is its tables; names of tables and columns are compared without
    regard to case, as SQLite and Access do.  External: what a column stores when given a
    value ([store]), which keys a table accepts ([key_free]).  Taken for granted: a
    statement that fails changes nothing; a connection used as a context manager is
    committed when the block ends and rolled back when it raises; SQLite opens a
    transaction before the first DELETE or INSERT, but none for CREATE; an
    INSERT that names a column twice fails.

    Generic tables are in Generic.v (Access refuses them), generator tables in Lazy.v.
    Not modelled: directories and unreadable files, names with brackets, the implicit
    columns rowid, oid and _rowid_ of SQLite. *)
From Coq Require Import ZArith Bool List String Ascii Arith.
From Verif Require Import PyVal PyDict PyStr TypeDict Data FindTypes FK Graph Factory InfIO Params Names Obj ObjFacts Utils Ampl Json Sql Pg.
Import ListNotations.
Local Open Scope string_scope.
Local Open Scope list_scope.

(** ** Files *)

(** A column: its name, declared type, and the value of a row that does not
    name it (sqlitetd.py 265-270, mdb.py 265-269). *)
Record dbcol : Type := mkDC { dc_name : string; dc_type : string; dc_default : value }.
(** A table: columns, the fields of its primary key, rows (sqlitetd.py 265-276, mdb.py 263-274). *)
Record dbtable : Type := mkDT { dt_cols : list dbcol; dt_key : list string; dt_rows : list (list value) }.
(** The tables of a file (sqlitetd.py 311-322). *)
Definition filedb := list (string * dbtable).

(** Names of tables and columns, in sqlitetd.py 181-182, mdb.py 165-168. *)
Definition same_name (a b : string) : bool := String.eqb (lower a) (lower b).
(** The table meant by a name in a statement (sqlitetd.py 155). *)
Definition find_table (db : filedb) (n : string) : option dbtable := dget same_name db n.
(** The column meant by a name (sqlitetd.py 181). *)
Definition has_col (dt : dbtable) (x : string) : bool := existsb (fun c => same_name (dc_name c) x) (dt_cols dt).
(** [Select x from], sqlitetd.py 225. *)
Definition db_cell (dt : dbtable) (r : list value) (x : string) : value :=
  dget_or same_name (combine (map dc_name (dt_cols dt)) r) x VNone.
(** [Select xs from], sqlitetd.py 225-226, mdb.py 196-197. *)
Definition db_select (dt : dbtable) (xs : list string) : list (list value) :=
  map (fun r => map (db_cell dt r) xs) (dt_rows dt).
(** The table with other rows (sqlitetd.py 354-356). *)
Definition set_rows (dt : dbtable) (rows : list (list value)) : dbtable := mkDT (dt_cols dt) (dt_key dt) rows.
(** [Delete from t], sqlitetd.py 354, mdb.py 311. *)
Definition clear_table (db : filedb) (t : string) : filedb :=
  match find_table db t with Some dt => dset same_name db t (set_rows dt []) | None => db end.
(** [Select * from t] has no row, sqlitetd.py 352, mdb.py 308-310. *)
Definition is_empty (db : filedb) (t : string) : bool :=
  match find_table db t with Some dt => Nat.eqb (List.length (dt_rows dt)) 0 | None => true end.

Section Engine.
  (** What a column of a type stores; [None]: the statement fails. *)
  Variable store : string -> value -> option value.
  (** Can a row with this key be added to rows with those keys? *)
  Variable key_free : list (list value) -> list value -> bool.

  (** The cells of a new row (INSERT, sqlitetd.py 294, mdb.py 321, 326). *)
  Fixpoint new_cells (cols : list dbcol) (given : list (string * value)) : option (list value) :=
    match cols with
    | [] => Some []
    | c :: cols' =>
        match (match dget same_name given (dc_name c) with Some v => store (dc_type c) v | None => Some (dc_default c) end),
              new_cells cols' given with
        | Some v, Some r => Some (v :: r)
        | _, _ => None
        end
    end.

  (** The key of a row, sqlitetd.py 273-274, mdb.py 270-272. *)
  Definition row_key (dt : dbtable) (r : list value) : list value := map (db_cell dt r) (dt_key dt).

  (** INSERT INTO t (names) VALUES (values), sqlitetd.py 356, mdb.py 323, 330. *)
  Definition db_insert (db : filedb) (t : string) (given : list (string * value)) : option filedb :=
    match find_table db t with
    | None => None
    | Some dt =>
        if distinct_b (map (fun xv => lower (fst xv)) given) && forallb (fun xv => has_col dt (fst xv)) given then
          match new_cells (dt_cols dt) given with
          | None => None
          | Some r =>
              if Nat.eqb (List.length (dt_key dt)) 0 || key_free (map (row_key dt) (dt_rows dt)) (row_key dt r)
              then Some (dset same_name db t (set_rows dt (dt_rows dt ++ [r]))) else None
          end
        else None
    end.

  (** One INSERT after another, sqlitetd.py 355-356. *)
  Fixpoint insert_list (l : list (string * list (string * value))) (db : filedb) : option filedb :=
    match l with
    | [] => Some db
    | tg :: l' => match db_insert db (fst tg) (snd tg) with Some db' => insert_list l' db' | None => None end
    end.

  (** ** Names and fields: sqlitetd.py 149-186, mdb.py 133-171 *)

  (** sqlitetd.py 149-167, mdb.py 133-151: the name found for each table. *)
  Definition names_found (db : filedb) (tables : list string) : outcome (list (string * string)) :=
    bindO (mapO (fun t => bindO (get_db_table (map fst db) t) (fun o => Ret (match o with Some n => [(t, n)] | None => [] end))) tables)
      (fun l => Ret (List.concat l)).
  (** sqlitetd.py 168-186, mdb.py 152-171 *)
  Definition check_fields (f : factory) (db : filedb) : outcome (list (string * string)) :=
    bindO (names_found db (map fst (plain_schema f))) (fun names =>
      if forallb (fun tn => match find_table db (snd tn) with
                            | Some dt => forallb (has_col dt) (tfields (ts_of (plain_schema f) (fst tn)))
                            | None => false
                            end) names
      then Ret names else Raise).

  (** CREATE TABLE statements, each committed by itself, until one fails
      (sqlitetd.py 320-322, mdb.py 262-275). *)
  Fixpoint create_tables (l : list (string * dbtable)) (db : filedb) : bool * filedb :=
    match l with
    | [] => (true, db)
    | tp :: l' =>
        match find_table db (fst tp) with
        | Some _ => (false, db)
        | None =>
            if distinct_b (map (fun c => lower (dc_name c)) (dt_cols (snd tp))) then create_tables l' (db ++ [tp]) else (false, db)
        end
    end.

  (** ** Reading *)

  (** The argument of the constructor for the rows of one table, converted by [read]
      (sqlitetd.py 220-239, mdb.py 191-205). *)
  Definition table_arg (read : string -> string -> value -> outcome value) (t : string) (ts : tschema) (rows : list (list value))
    : outcome tablein :=
    bindO (mapO (fun r => mapO (fun fx => read t (fst fx) (snd fx)) (combine (tfields ts) r)) rows) (fun rs =>
      Ret (match tpk ts with
           | [] => TRows (map RSeq rs)
           | _ => TDict (dict_of pkey_eqb (map (fun r =>
                    (match firstn (List.length (tpk ts)) r with [v] => KAtom v | l => KTup l end,
                     RSeq (skipn (List.length (tpk ts)) r))) rs))
           end)).

  Variable date_of : value -> option Z.
  Variable float_of : value -> option value.

  (** sqlitetd.py 71-92, 204-239, mdb.py 94-115, 184-209: a table that is not found is
      left out. *)
  Definition read_file (read : factory -> string -> string -> value -> outcome value) (f : factory) (db : filedb) : outcome obj :=
    bindO (check_fields f db) (fun names =>
      bindO (mapO (fun tts =>
        match dget String.eqb names (fst tts) with
        | None => Ret []
        | Some n =>
            match find_table db n with
            | None => Raise
            | Some dt => bindO (table_arg (read f) (fst tts) (snd tts) (db_select dt (tfields (snd tts)))) (fun i => Ret [(fst tts, i)])
            end
        end) (plain_schema f))
      (fun l => match construct (plain_schema f) (f_defaults f) (dup_mode f) (List.concat l) with
                | None => Raise
                | Some d => Ret (adjust_params date_of float_of f d)
                end)).

  (** sqlitetd.py 79-92 [create_tic_dat]. *)
  Definition sql_read_file : factory -> filedb -> outcome obj := read_file (read_data_cell date_of float_of).
  (** [_general_read_cell], mdb.py 199. *)
  Definition general_read (f : factory) (t x : string) (v : value) : outcome value := fst (read_cell date_of float_of (mkIO f []) t x v).
  (** mdb.py 94-115 [create_tic_dat]. *)
  Definition mdb_read_file : factory -> filedb -> outcome obj := read_file general_read.

  (** sqlitetd.py 112-128, mdb.py 116-132 and utils.py 738-757: the duplicates are counted in an object read by a
      factory with the key fields as data fields, and no other setting. *)
  Definition file_duplicates (read : factory -> string -> string -> value -> outcome value) (f : factory) (db : filedb)
    : outcome (list (string * list (key * nat))) :=
    match keyed_tables (plain_schema f) with
    | [] => Ret []
    | kt =>
        bindO (read_file read (duplicate_focused f) db) (fun td =>
          find_duplicates (map (fun tts => (fst tts, tpk (snd tts))) kt)
            (fun t => match td t with
                      | OListed l => map (combine (tpk (ts_of (plain_schema f) t))) l
                      | OKeyed _ => []
                      end))
    end.
  (** sqlitetd.py 112-128 [find_duplicates]. *)
  Definition sql_duplicates : factory -> filedb -> outcome (list (string * list (key * nat))) := file_duplicates (read_data_cell date_of float_of).
  (** mdb.py 116-132 [find_duplicates]. *)
  Definition mdb_duplicates : factory -> filedb -> outcome (list (string * list (key * nat))) := file_duplicates general_read.

  (** ** SQLite: writing *)

  (** The value of a column made by ticdat in a row that does not name it; the clause is
      [default [...]] (sqlitetd.py 268). *)
  Variable sql_default : value -> value.

  (** The integers among the numbers, for [int(def_) == def_] (sqlitetd.py 258). *)
  Definition whole (n : num) : bool := match n with Fin z => Z.eqb (z mod 2 ^ 1074) 0 | _ => false end.
  (** sqlitetd.py 251-261 *)
  Definition sql_type (f : factory) (t x : string) : string :=
    if String.eqb t "parameters" && has_params f then ""
    else match cell_default (f_defaults f) t x with
         | VNum n => if whole n then "INT" else "FLOAT"
         | VNaN => "FLOAT"
         | _ => ""
         end.
  (** sqlitetd.py 262-276, one table. *)
  Definition sql_table (f : factory) (t : string) (ts : tschema) : dbtable :=
    mkDT (map (fun x => mkDC x "" VNone) (tpk ts) ++
          map (fun x => mkDC x (sql_type f t x) (sql_default (cell_default (f_defaults f) t x))) (tdf ts)) (tpk ts) [].
  (** sqlitetd.py 311-322 [write_db_schema]; a circle of foreign keys raises RecursionError (C18). *)
  Definition sql_write_schema (f : factory) (db : filedb) : bool * filedb :=
    match sq_order (S (List.length (f_decl f))) (f_fks f) (map fst (plain_schema f)) with
    | None => (false, db)
    | Some order => create_tables (map (fun t => (t, sql_table f t (ts_of (plain_schema f) t))) order) db
    end.

  (** sqlitetd.py 282-310 with placeholders: the INSERTs with their values. *)
  Definition sql_inserts (f : factory) (d : obj) : outcome (list (string * list (string * value))) :=
    bindO (mapO (fun tts => bindO (out_rows date_of f (fst tts) (snd tts) (d (fst tts)))
                              (fun rows => Ret (map (fun r => (fst tts, combine (tfields (snd tts)) r)) rows))) (plain_schema f))
      (fun l => Ret (List.concat l)).

  (** sqlitetd.py 349-354 *)
  Fixpoint prepare (allow : bool) (names : list (string * string)) (tables : list string) (db : filedb) : option filedb :=
    match tables with
    | [] => Some db
    | t :: tables' =>
        if match dget String.eqb names t with Some n => String.eqb n t | None => false end && (allow || is_empty db t)
        then prepare allow names tables' (if allow then clear_table db t else db) else None
    end.

  (** sqlitetd.py 323-356 for a good object; [path]: the file, if there is one.  The result is whether the call
      returned, and the file afterwards. *)
  Definition sql_write_file (f : factory) (allow : bool) (d : obj) (path : option filedb) : bool * option filedb :=
    match (match path with None => sql_write_schema f [] | Some db => (true, db) end) with
    | (false, db) => (false, Some db)
    | (true, db) =>
        match check_fields f db with
        | Raise => (false, Some db)
        | Ret names =>
            match prepare allow names (map fst (plain_schema f)) db, sql_inserts f d with
            | Some db1, Ret l => match insert_list l db1 with Some db2 => (true, Some db2) | None => (false, Some db) end
            | _, _ => (false, Some db)
            end
        end
    end.

  (** ** Access: writing *)

  (** Can the name of a table be written without brackets? (mdb.py 308, 311, 321, 326) *)
  Variable bare : string -> bool.

  (** mdb.py 242-247 *)
  Definition mdb_type (f : factory) (types : list (string * list (string * string))) (t x dflt : string) : string :=
    match dget2 types t x with
    | Some ty => ty
    | None => if String.eqb t "parameters" && has_params f then "text" else dflt
    end.
  (** mdb.py 263-273, one table. *)
  Definition mdb_table (f : factory) (types : list (string * list (string * string))) (t : string) (ts : tschema) : dbtable :=
    mkDT (map (fun x => mkDC x (mdb_type f types t x "text") VNone) (tpk ts) ++
          map (fun x => mkDC x (mdb_type f types t x "double") VNone) (tdf ts)) (tpk ts) [].
  (** mdb.py 232-241 *)
  Definition mdb_types_ok (f : factory) (types : list (string * list (string * string))) : bool :=
    forallb (fun tv => is_table f (fst tv) &&
               forallb (fun xy => mem_str (fst xy) (tfields (ts_of (plain_schema f) (fst tv))) &&
                                  mem_str (snd xy) ["text"; "double"; "int"]) (snd tv)) types.
  (** mdb.py 217-275 [write_schema]; [can_create]: a new file can be made (250-261).  [order]: the
      tables in the order of [all_tables], a set. *)
  Definition mdb_write_schema (can_create : bool) (f : factory) (types : list (string * list (string * string))) (order : list string)
    (path : option filedb) : bool * option filedb :=
    if no_generics f && mdb_types_ok f types then
      match path, can_create with
      | None, false => (false, None)
      | _, _ =>
          match create_tables (map (fun t => (t, mdb_table f types t (ts_of (plain_schema f) t))) order)
                  (match path with Some db => db | None => [] end) with
          | (ok, db) => (ok, Some db)
          end
      end
    else (false, path).

  (** mdb.py 305-306: [write_data] is given the name in brackets if the table has a key (317-320),
      the name itself otherwise (329). *)
  Definition mdb_field (ts : tschema) (x : string) : string :=
    match tpk ts with [] => x | _ => "[" ++ x ++ "]" end%string.
  (** mdb.py 305-306, 320, 329 *)
  Definition mdb_cell (f : factory) (t : string) (ts : tschema) (x : string) (v : value) : outcome value :=
    fst (write_cell date_of (mkIO f []) t (mdb_field ts x) v).
  (** mdb.py 314-320, 326-329: the names and values of one row. *)
  Definition mdb_row (f : factory) (t : string) (ts : tschema) (r : list value) : outcome (list (string * value)) :=
    mapO (fun fx => bindO (mdb_cell f t ts (fst fx) (snd fx)) (fun v => Ret (fst fx, v))) (combine (tfields ts) r).

  (** mdb.py 313-330: the rows of one table.  The file has a committed and a
      current state; with a key each row is committed (323), without it is not (330). *)
  Fixpoint mdb_rows (f : factory) (t : string) (ts : tschema) (rows : list (list value)) (st : filedb * filedb) : bool * (filedb * filedb) :=
    match rows with
    | [] => (true, st)
    | r :: rows' =>
        match mdb_row f t ts r with
        | Raise => (false, st)
        | Ret given =>
            match db_insert (snd st) t given with
            | None => (false, st)
            | Some db => mdb_rows f t ts rows' (match tpk ts with [] => fst st | _ => db end, db)
            end
        end
    end.

  (** mdb.py 304-330, for the tables in the order of [all_tables]. *)
  Fixpoint mdb_tables (f : factory) (allow : bool) (names : list (string * string)) (d : obj) (order : list string) (st : filedb * filedb)
    : bool * (filedb * filedb) :=
    match order with
    | [] => (true, st)
    | t :: order' =>
        if match dget String.eqb names t with Some n => String.eqb n t | None => false end && bare t && (allow || is_empty (snd st) t) then
          let st1 := if allow then (clear_table (snd st) t, clear_table (snd st) t) else st in
          match mdb_rows f t (ts_of (plain_schema f) t) (full_rows (d t)) st1 with
          | (false, st2) => (false, st2)
          | (true, st2) => mdb_tables f allow names d order' st2
          end
        else (false, st)
    end.

  (** mdb.py 276-330 for a good object. *)
  Definition mdb_write_file (can_create : bool) (f : factory) (allow : bool) (order : list string) (d : obj) (path : option filedb)
    : bool * option filedb :=
    if negb (no_generics f) then (false, path)
    else match (match path with None => mdb_write_schema can_create f [] order None | Some db => (true, Some db) end) with
         | (true, Some db) =>
             match check_fields f db with
             | Raise => (false, Some db)
             | Ret names =>
                 match mdb_tables f allow names d order (db, db) with
                 | (true, st) => (true, Some (snd st))
                 | (false, st) => (false, Some (fst st))
                 end
             end
         | (_, p) => (false, p)
         end.
End Engine.
