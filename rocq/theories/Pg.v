(** * Postgres: pgtd.py 51-118 (checks and orders), 120-189
    (_get_schema_sql), 191-235 (write_schema), 237-251
    (_handle_prexisting_rows), 282-289 (cells), 299-352 (create_tic_dat),
    354-378 (find_duplicates), 381-463 (_get_data, write_data).

    The database is external; what is taken for granted about it is in the
    definitions of the section "The database" below (see DESIGN.md, section 3).
    One schema is modelled, which exists.  Statements are modelled by what they
    say, not by their text; a default that is a string with quotes is the one
    place where the text matters ([default_text_ok]).  Not modelled: generic and
    generator tables (both are refused), the name of the engine, cells that are containers, texts with the
    character 0 (refused by psycopg2), keys of [forced_field_types] that are not
    pairs. *)
From Coq Require Import ZArith Bool List String Ascii Arith.
From Verif Require Import PyVal PyDict PyStr TypeDict Data FindTypes FK Graph Factory InfIO Params Names Obj Utils Json.
Import ListNotations.
Local Open Scope string_scope.
Local Open Scope list_scope.

(** ** The database *)

(** The column types of pgtd.py 128-142, 209; "date" and "bytea" are opaque. *)
Inductive ctype : Type :=
| CText : ctype
| CInteger : ctype
| CFloat : ctype
| CBool : ctype
| CTimestamp : ctype
| COther : string -> ctype.

(** The expression after DEFAULT (pgtd.py 146-156): NULL, a boolean, a number,
    a quoted text, or something that is no literal (inf, nan). *)
Inductive dexp : Type :=
| DNull : dexp
| DBool : bool -> dexp
| DNum : Z -> dexp
| DText : string -> dexp
| DBare : dexp.

(** A column definition, pgtd.py 176-180. *)
Record column : Type := mkCol { c_name : string; c_type : ctype; c_notnull : bool; c_default : option dexp }.

(** FOREIGN KEY (columns) REFERENCES table (columns), pgtd.py 183-186. *)
Record pgfk : Type := mkPgFk { g_native : list string; g_table : string; g_foreign : list string }.

(** A table of the schema: columns, primary key, foreign keys (pgtd.py 174-188)
    and rows, a row having one cell per column. *)
Record pgtable : Type := mkPT { pt_cols : list column; pt_key : list string; pt_fks : list pgfk; pt_rows : list (list value) }.

(** The tables of the schema (pgtd.py 80-81). *)
Definition pgdb := list (string * pgtable).

(** The cell of column [x] in a row, as in [Select x from] (pgtd.py 341). *)
Definition pg_cell (pt : pgtable) (r : list value) (x : string) : value :=
  dget_or String.eqb (combine (map c_name (pt_cols pt)) r) x VNone.
(** [Select xs from], pgtd.py 341. *)
Definition pg_cells (pt : pgtable) (r : list value) (xs : list string) : list value := map (pg_cell pt r) xs.

(** A string that can be put between quotes as it is (pgtd.py 154-155): every
    quote is one of a pair. *)
Fixpoint quotes_paired (s : string) : bool :=
  match s with
  | EmptyString => true
  | String c s' =>
      if Ascii.eqb c "'" then match s' with String d s'' => Ascii.eqb d "'" && quotes_paired s'' | EmptyString => false end
      else quotes_paired s'
  end.

(** The string denoted by it: one quote for each pair (pgtd.py 154-155). *)
Fixpoint one_quote (s : string) : string :=
  match s with
  | String c (String d s' as r) => if Ascii.eqb c "'" && Ascii.eqb d "'" then String c (one_quote s') else String c (one_quote r)
  | _ => s
  end.

Section Pg.
  Variable date_of : value -> option Z.
  Variable float_of : value -> option value.
  (** What Postgres stores in a text column for a value that is not a text. *)
  Variable pg_text : value -> string.
  (** The number, the stamp and the boolean that Postgres finds in a text. *)
  Variable pg_num : string -> option num.
  Variable pg_stamp : string -> option Z.
  Variable pg_bool : string -> option bool.
  (** A finite number in an integer column (rounded, [None] out of range) and in
      a float column (rounded). *)
  Variable pg_int : Z -> option Z.
  Variable pg_float : Z -> Z.
  (** The other column types. *)
  Variable pg_other : string -> value -> option value.

  (** What a column stores when given a value; [None]: the statement fails
      (the INSERT of pgtd.py 405, 462). *)
  Definition coerce (c : ctype) (v : value) : option value :=
    match v with
    | VNone => Some VNone
    | _ =>
        match c with
        | CText => Some (match v with VStr _ => v | _ => VStr (pg_text v) end)
        | CInteger =>
            match v with
            | VNum (Fin z) => option_map (fun k => VNum (Fin k)) (pg_int z)
            | VStr s => match pg_num s with Some (Fin z) => option_map (fun k => VNum (Fin k)) (pg_int z) | _ => None end
            | _ => None
            end
        | CFloat =>
            match v with
            | VNum (Fin z) => Some (VNum (Fin (pg_float z)))
            | VNum _ | VNaN => Some v
            | VStr s => match pg_num s with Some (Fin z) => Some (VNum (Fin (pg_float z))) | Some n => Some (VNum n) | None => None end
            | _ => None
            end
        | CBool => match v with VBool _ => Some v | VStr s => option_map VBool (pg_bool s) | _ => None end
        | CTimestamp => match v with VDate _ => Some v | VStr s => option_map VDate (pg_stamp s) | _ => None end
        | COther s => pg_other s v
        end
    end.

  (** The value of a DEFAULT (pgtd.py 172); no clause means NULL. *)
  Definition default_value (c : column) : option value :=
    match c_default c with
    | None | Some DNull => Some VNone
    | Some (DBool b) => coerce (c_type c) (VBool b)
    | Some (DNum z) => coerce (c_type c) (VNum (Fin z))
    | Some (DText s) => coerce (c_type c) (VStr (one_quote s))
    | Some DBare => None
    end.

  (** The default is a literal of the type of the column (checked by CREATE TABLE, pgtd.py 234). *)
  Definition default_text_ok (c : column) : bool :=
    match c_default c with
    | Some (DText s) => quotes_paired s && match default_value c with Some _ => true | None => false end
    | _ => match default_value c with Some _ => true | None => false end
    end.

  (** Types that can be compared in a foreign key (pgtd.py 185-186). *)
  Definition comparable (a b : ctype) : bool :=
    match a, b with
    | CText, CText | CBool, CBool | CTimestamp, CTimestamp => true
    | CInteger, CInteger | CInteger, CFloat | CFloat, CInteger | CFloat, CFloat => true
    | COther a, COther b => String.eqb a b
    | _, _ => false
    end.

  (** The type of a column (pgtd.py 176-180). *)
  Definition col_type (pt : pgtable) (x : string) : option ctype :=
    option_map c_type (find (fun c => String.eqb (c_name c) x) (pt_cols pt)).

  (** A foreign key is accepted if the table it refers to exists (perhaps the
      one being created), the columns it refers to are those of its primary key,
      and the types can be compared (pgtd.py 183-186, 234). *)
  Definition fk_accepted (db : pgdb) (pt : pgtable) (k : pgfk) : bool :=
    match dget String.eqb db (g_table k) with
    | None => false
    | Some ft =>
        negb (Nat.eqb (List.length (pt_key ft)) 0) &&
        Nat.eqb (List.length (g_foreign k)) (List.length (pt_key ft)) &&
        forallb (fun x => mem_str x (pt_key ft)) (g_foreign k) &&
        forallb (fun x => mem_str x (g_foreign k)) (pt_key ft) &&
        forallb (fun nf => match col_type pt (fst nf), col_type ft (snd nf) with
                           | Some a, Some b => comparable a b
                           | _, _ => false
                           end) (combine (g_native k) (g_foreign k))
    end.

  (** CREATE TABLE (pgtd.py 234). *)
  Definition create_table (db : pgdb) (t : string) (pt : pgtable) : option pgdb :=
    let db' := dset String.eqb db t pt in
    if negb (dmem String.eqb db t) && distinct_b (map c_name (pt_cols pt)) &&
       forallb default_text_ok (pt_cols pt) &&
       forallb (fk_accepted db' pt) (pt_fks pt)
    then Some db' else None.

  (** The rows of [pt] satisfy the foreign key [k] in [db]; a NULL satisfies it
      (constraints of pgtd.py 185-186). *)
  Definition fk_satisfied (db : pgdb) (pt : pgtable) (k : pgfk) (r : list value) : bool :=
    let cells := pg_cells pt r (g_native k) in
    existsb (fun v => value_eqb v VNone) cells ||
    match dget String.eqb db (g_table k) with
    | Some ft => existsb (fun r' => list_eqb value_eqb (pg_cells ft r' (g_foreign k)) cells) (pt_rows ft)
    | None => false
    end.

  (** The row that INSERT makes of the cells given (pgtd.py 405, 462). *)
  Fixpoint new_row (cols : list column) (given : list (string * value)) : option (list value) :=
    match cols with
    | [] => Some []
    | c :: cols' =>
        match (match dget String.eqb given (c_name c) with Some v => coerce (c_type c) v | None => default_value c end),
              new_row cols' given with
        | Some v, Some r => if c_notnull c && value_eqb v VNone then None else Some (v :: r)
        | _, _ => None
        end
    end.

  (** The primary key (pgtd.py 181-182): no NULL in it, and no other row with it. *)
  Definition key_free (pt : pgtable) (r : list value) : bool :=
    match pt_key pt with
    | [] => true
    | ks => forallb (fun v => negb (value_eqb v VNone)) (pg_cells pt r ks) &&
            negb (existsb (fun r' => list_eqb value_eqb (pg_cells pt r' ks) (pg_cells pt r ks)) (pt_rows pt))
    end.

  (** The table with other rows (INSERT and DELETE of pgtd.py 246-250, 405). *)
  Definition with_rows (pt : pgtable) (rows : list (list value)) : pgtable :=
    mkPT (pt_cols pt) (pt_key pt) (pt_fks pt) rows.

  (** INSERT INTO (pgtd.py 405, 462).  Foreign keys are checked when the row is there. *)
  Definition insert_row (db : pgdb) (t : string) (given : list (string * value)) : option pgdb :=
    match dget String.eqb db t with
    | None => None
    | Some pt =>
        if distinct_b (map fst given) && forallb (fun x => mem_str x (map c_name (pt_cols pt))) (map fst given) then
          match new_row (pt_cols pt) given with
          | None => None
          | Some r =>
              let db' := dset String.eqb db t (with_rows pt (pt_rows pt ++ [r])) in
              if key_free pt r && forallb (fun k => fk_satisfied db' pt k r) (pt_fks pt) then Some db' else None
          end
        else None
    end.

  (** Removing all rows of a table (pgtd.py 246-250): TRUNCATE, or DELETE where
      TRUNCATE is refused; it fails if a row of another table refers to one of them. *)
  Definition delete_rows (db : pgdb) (t : string) : option pgdb :=
    match dget String.eqb db t with
    | None => None
    | Some pt =>
        let db' := dset String.eqb db t (with_rows pt []) in
        if forallb (fun up => forallb (fun k => negb (String.eqb (g_table k) t) ||
                                         forallb (fk_satisfied db' (snd up) k) (pt_rows (snd up))) (pt_fks (snd up))) db'
        then Some db' else None
    end.

  (** ** write_schema *)

  (** The argument [forced_field_types], pgtd.py 197. *)
  Definition forced_types := list ((string * string) * string).

  (** The column types of pgtd.py 209. *)
  Definition ctype_of (s : string) : ctype :=
    if String.eqb s "text" then CText
    else if String.eqb s "integer" then CInteger
    else if String.eqb s "float" then CFloat
    else if String.eqb s "bool" || String.eqb s "boolean" then CBool
    else if String.eqb s "timestamp" then CTimestamp
    else COther s.

  (** pgtd.py 207-212 *)
  Definition forced_ok (f : factory) (forced : forced_types) : bool :=
    forallb (fun kv => has_field f (fst (fst kv)) (snd (fst kv)) &&
                       mem_str (snd kv) ["text"; "integer"; "float"; "bool"; "boolean"; "timestamp"; "date"; "bytea"]) forced.

  (** pgtd.py 124-144; in line 144 the exception is made but not raised, and the
      concatenation with None in 176-180 raises another one. *)
  Definition fld_type (f : factory) (forced : forced_types) (t x : string) (dflt : ctype) : outcome ctype :=
    match dget tf_eqb forced (t, x) with
    | Some s => Ret (ctype_of s)
    | None =>
        if String.eqb t "parameters" && has_params f then Ret CText
        else match field_type f t x with
             | None => Ret dflt
             | Some dt =>
                 if datetime dt then Ret CTimestamp
                 else if number_allowed dt && strs_truthy (strings_allowed dt) then Raise
                 else if strs_truthy (strings_allowed dt) then Ret CText
                 else if number_allowed dt then Ret (if must_be_int dt then CInteger else CFloat)
                 else Raise
             end
    end.

  (** pgtd.py 146-156.  The default of a data field is always there. *)
  Definition db_default (f : factory) (forced : forced_types) (t x : string) : dexp :=
    let v := cell_default (f_defaults f) t x in
    match dget tf_eqb forced (t, x) with
    | Some "bool" | Some "boolean" => DBool (truthy v)
    | _ =>
        match v, f_flag f with
        | VNone, _ | VStr "", _ => DNull
        | VNum PInf, VNum (Fin m) => DNum (Z.abs m)
        | VNum NInf, VNum (Fin m) => DNum (- Z.abs m)
        | VStr s, _ => DText s
        | VNum (Fin z), _ => DNum z
        | VBool b, _ => DBool b
        | _, _ => DBare
        end
    end.

  (** pgtd.py 158-164 *)
  Definition pg_nullable (f : factory) (t x : string) : bool :=
    match field_type f t x with
    | None => true
    | Some dt => number_allowed dt && value_eqb (f_flag f) VNone || nullable dt
    end.

  (** pgtd.py 166-172 *)
  Definition default_sql (f : factory) (forced : forced_types) (t x : string) : option dexp :=
    let v := cell_default (f_defaults f) t x in
    let forced_to s := match dget tf_eqb forced (t, x) with Some s' => String.eqb s' s | None => false end in
    if forced_to "text" && stringish v then Some (db_default f forced t x)
    else if match field_type f t x with Some dt => datetime dt | None => false end || forced_to "bytea" then None
    else Some (db_default f forced t x).

  (** pgtd.py 176-177 *)
  Definition key_column (f : factory) (forced : forced_types) (t x : string) : outcome column :=
    bindO (fld_type f forced t x CText) (fun c => Ret (mkCol (pg_name x) c false None)).
  (** pgtd.py 178-180 *)
  Definition data_column (f : factory) (forced : forced_types) (t x : string) : outcome column :=
    bindO (fld_type f forced t x CFloat) (fun c =>
      Ret (mkCol (pg_name x) c (negb (pg_nullable f t x)) (default_sql f forced t x))).

  (** pgtd.py 183-186; [nativetoforeignmapping] keeps one native field for each foreign field. *)
  Definition pg_fk (k : fk) : pgfk :=
    let m := native_to_foreign (fk_map k) in
    mkPgFk (map (fun nf => pg_name (fst nf)) m) (fk_foreign k) (map (fun nf => pg_name (snd nf)) m).

  (** pgtd.py 175-188: the CREATE TABLE statement of one table. *)
  Definition table_stmt (f : factory) (forced : forced_types) (t : string) (ts : tschema) : outcome pgtable :=
    bindO (mapO (key_column f forced t) (tpk ts)) (fun ks =>
      bindO (mapO (data_column f forced t) (tdf ts)) (fun ds =>
        Ret (mkPT (ks ++ ds) (map pg_name (tpk ts))
               (map pg_fk (filter (fun k => String.eqb (fk_native k) t) (f_fks f))) []))).

  (** pgtd.py 107-118; the fuel exceeds the depth of the recursion (theorem C17). *)
  Definition ordered_tables (f : factory) : list string :=
    match pg_order (S (List.length (f_decl f))) (f_fks f) (map fst (plain_schema f)) with Some l => l | None => [] end.

  (** [self.tdf.all_tables] with their fields (pgtd.py 51-64). *)
  Definition names_ok (f : factory) : bool :=
    pg_compatible (map (fun td => (fst td, match snd td with Fields ts => tfields ts | Generic => [] end)) (f_decl f)).

  (** pgtd.py 228, 324, 446 *)
  Definition no_generics (f : factory) : bool :=
    forallb (fun td => match snd td with Generic => false | Fields _ => true end) (f_decl f).

  (** One statement after another, pgtd.py 233-234. *)
  Definition create_all (l : list (string * pgtable)) (db : pgdb) : outcome pgdb :=
    fold_left (fun acc tp => bindO acc (fun db => match create_table db (fst tp) (snd tp) with Some db' => Ret db' | None => Raise end))
      l (Ret db).

  (** pgtd.py 204-212, 228-235 *)
  Definition write_schema_full (f : factory) (forced : forced_types) (db : pgdb) : outcome pgdb :=
    if names_ok f && forced_ok f forced && no_generics f then
      bindO (mapO (fun t => bindO (table_stmt f forced t (ts_of (plain_schema f) t)) (fun pt => Ret (t, pt))) (ordered_tables f))
        (fun stmts => create_all stmts db)
    else Raise.

  (** pgtd.py 215-222: the same tables without keys, foreign keys and parameters. *)
  Definition without_keys (f : factory) : factory :=
    let decl := map (fun tts => (fst tts, Fields (mkT [] (tfields (snd tts))))) (plain_schema f) in
    mkF decl
      (fold_left (fun acc td => fold_left (fun acc xv => dset2 acc (fst td) (fst xv) (snd xv)) (snd td) acc)
         (f_defaults f) (zero_defaults decl))
      (f_types f) [] [] [] [] [] false (f_flag f) (VStr "prune") (VStr "assert") (VBool true) false.

  (** pgtd.py 223-225 *)
  Definition keys_as_text (f : factory) (forced : forced_types) : forced_types :=
    dupdate tf_eqb
      (flat_map (fun tts => map (fun x => ((fst tts, x), "text"))
                   (filter (fun x => match field_type f (fst tts) x with None => true | Some _ => false end) (tpk (snd tts))))
         (plain_schema f))
      forced.

  (** pgtd.py 191-235 *)
  Definition write_schema (f : factory) (forced : forced_types) (ancillary : bool) (db : pgdb) : outcome pgdb :=
    if ancillary then write_schema_full f forced db
    else if names_ok f && forced_ok f forced && no_generics f
    then write_schema_full (without_keys f) (keys_as_text f forced) db else Raise.

  (** ** write_data *)

  (** pgtd.py 42-44 *)
  Definition active_tables (db : pgdb) (active : string) : list string :=
    if String.eqb active "" then []
    else map fst (filter (fun tp => mem_str active (map c_name (pt_cols (snd tp)))) db).

  (** pgtd.py 66-100: the missing tables. *)
  Definition check_tables (f : factory) (db : pgdb) (error_on_missing : bool) : outcome (list string) :=
    if forallb (fun tts => match dget String.eqb db (fst tts) with
                           | None => true
                           | Some pt => forallb (fun x => mem_str (pg_name x) (map c_name (pt_cols pt))) (tfields (snd tts))
                           end) (plain_schema f)
    then
      let missing := filter (fun t => negb (dmem String.eqb db t)) (map fst (plain_schema f)) in
      if negb (Nat.eqb (List.length missing) 0) && error_on_missing then Raise else Ret missing
    else Raise.

  (** pgtd.py 242-251; each table is committed. *)
  Fixpoint delete_all (pre : list (string * string)) (l : list string) (db : pgdb) : bool * pgdb :=
    match l with
    | [] => (true, db)
    | t :: l' =>
        if String.eqb (dget_or String.eqb pre t "delete") "delete" then
          match delete_rows db t with Some db' => delete_all pre l' db' | None => (false, db) end
        else delete_all pre l' db
    end.
  (** pgtd.py 237-251 *)
  Definition handle_preexisting (f : factory) (pre : list (string * string)) (db : pgdb) : bool * pgdb :=
    if forallb (fun tv => is_table f (fst tv) && mem_str (snd tv) ["delete"; "append"]) pre
    then delete_all pre (rev (ordered_tables f)) db else (false, db).

  (** pgtd.py 285-289; the conversion to int or float does not change the number. *)
  Definition pg_write_cell (f : factory) (t x : string) (v : value) : outcome value :=
    fst (write_cell date_of (mkIO f []) t x v).
  (** pgtd.py 282-283 *)
  Definition pg_read_cell (f : factory) (t x : string) (v : value) : outcome value :=
    fst (read_cell date_of float_of (mkIO f []) t x v).

  (** pgtd.py 387-406: the cells of one row by column. *)
  Definition given_cells (f : factory) (active : string) (actives : list string) (t : string) (ts : tschema) (r : list value)
    : outcome (list (string * value)) :=
    bindO (mapO (fun fx => bindO (pg_write_cell f t (fst fx) (snd fx)) (fun v => Ret (pg_name (fst fx), v))) (combine (tfields ts) r))
      (fun cells => Ret (cells ++ (if mem_str t actives then [(active, VBool true)] else []))).

  (** pgtd.py 381-410 *)
  Definition pg_data (f : factory) (active : string) (actives : list string) (d : obj)
    : outcome (list (string * list (string * value))) :=
    bindO (mapO (fun t => mapO (fun r => bindO (given_cells f active actives t (ts_of (plain_schema f) t) r) (fun g => Ret (t, g)))
                            (full_rows (d t))) (ordered_tables f))
      (fun l => Ret (List.concat l)).

  (** pgtd.py 461-462: stops at the first statement that fails. *)
  Fixpoint insert_all (l : list (string * list (string * value))) (db : pgdb) : bool * pgdb :=
    match l with
    | [] => (true, db)
    | tg :: l' => match insert_row db (fst tg) (snd tg) with Some db' => insert_all l' db' | None => (false, db) end
    end.

  (** pgtd.py 412-463 for an object that is good.  The result is whether the call
      returned, and the database afterwards: without [auto] (a connection with
      [commit]) the inserts of a call that raises are undone, but not the deletions of
      242-251. *)
  Definition write_data (f : factory) (auto : bool) (pre : list (string * string)) (active : string) (d : obj) (db : pgdb)
    : bool * pgdb :=
    if String.eqb (pg_name active) active && names_ok f && no_generics f &&
       match check_tables f db true with Ret _ => true | Raise => false end
    then
      match handle_preexisting f pre db with
      | (false, db1) => (false, db1)
      | (true, db1) =>
          match pg_data f active (active_tables db active) d with
          | Raise => (false, db1)
          | Ret l => match insert_all l db1 with
                     | (true, db2) => (true, db2)
                     | (false, db2) => (false, if auto then db2 else db1)
                     end
          end
      end
    else (false, db).

  (** ** create_tic_dat *)

  (** pgtd.py 341-342 *)
  Definition select_rows (pt : pgtable) (cols : list string) (active : option string) : list (list value) :=
    map (fun r => pg_cells pt r cols)
      (filter (fun r => match active with Some a => value_eqb (pg_cell pt r a) (VBool true) | None => true end) (pt_rows pt)).

  (** pgtd.py 337-350: the argument of the constructor for one table. *)
  Definition pg_table_in (f : factory) (t : string) (ts : tschema) (rows : list (list value)) : outcome tablein :=
    bindO (mapO (fun r => mapO (fun fx => pg_read_cell f t (fst fx) (snd fx)) (combine (tfields ts) r)) rows) (fun rs =>
      Ret (match tpk ts with
           | [] => TRows (map RSeq rs)
           | _ => TDict (dict_of pkey_eqb (map (fun r =>
                    (match firstn (List.length (tpk ts)) r with [v] => KAtom v | l => KTup l end,
                     RSeq (skipn (List.length (tpk ts)) r))) rs))
           end)).

  (** pgtd.py 299-352 *)
  Definition pg_create (f : factory) (active : string) (db : pgdb) : outcome obj :=
    if String.eqb (pg_name active) active && names_ok f && no_generics f && Nat.eqb (List.length (f_gens f)) 0 then
      bindO (check_tables f db false) (fun _ =>
        bindO (mapO (fun tts =>
          match dget String.eqb db (fst tts) with
          | None => Ret []
          | Some pt =>
              bindO (pg_table_in f (fst tts) (snd tts)
                       (select_rows pt (map pg_name (tfields (snd tts)))
                          (if mem_str (fst tts) (active_tables db active) then Some active else None)))
                (fun i => Ret [(fst tts, i)])
          end) (plain_schema f))
        (fun l => match construct (plain_schema f) (f_defaults f) (dup_mode f) (List.concat l) with
                  | None => Raise
                  | Some d => Ret (adjust_params date_of float_of f d)
                  end))
    else Raise.

  (** utils.py 738-741: the keyed tables with their key fields as data fields. *)
  Definition duplicate_focused (f : factory) : factory :=
    let decl := map (fun tts => (fst tts, Fields (mkT [] (tpk (snd tts))))) (keyed_tables (plain_schema f)) in
    mkF decl (zero_defaults decl) [] [] [] [] [] [] false (VStr "N/A") (VStr "prune") (VStr "assert") (VBool true) false.

  (** pgtd.py 354-378 *)
  Definition pg_duplicates (f : factory) (active : string) (db : pgdb) : outcome (list (string * list (key * nat))) :=
    if negb (names_ok f) then Raise
    else match keyed_tables (plain_schema f) with
         | [] => Ret []
         | kt =>
             bindO (pg_create (duplicate_focused f) active db) (fun td =>
               find_duplicates (map (fun tts => (fst tts, tpk (snd tts))) kt)
                 (fun t => match td t with
                           | OListed l => map (combine (tpk (ts_of (plain_schema f) t))) l
                           | OKeyed _ => []
                           end))
         end.
End Pg.
