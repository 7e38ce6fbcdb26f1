(** * SQLite: sqlitetd.py 18-41 (_fix_str, _insert_format), 49-50 (_brackets),
    134-148 (_create_tic_dat_from_sql), 187-195 (_read_data_cell), 214-239
    (_create_tic_dat_from_con), 251-266 (column types), 278-310
    (_write_data_cell, _get_data), 345-356 (write_db_data), 386-390
    (write_sql_file).

    Generic tables are in Generic.v, generator tables in Lazy.v, files in FileDb.v,
    the statements that create the schema in SqlSchema.v.
    Not modelled: the parser of SQL (see [denotes] in SqlFacts.v for string
    literals), databases whose schema was not written by ticdat, integers beyond 64 bits (refused by sqlite3). *)
From Coq Require Import ZArith Bool List String Ascii Arith.
From Verif Require Import PyVal PyDict PyStr Data FindTypes FK Factory InfIO Params Names Obj ObjFacts Utils Ampl Json.
Import ListNotations.
Local Open Scope string_scope.
Local Open Scope list_scope.

(** The character of sqlitetd.py 27, 30. *)
Definition quote : ascii := "'"%char.
(** The character of sqlitetd.py 145. *)
Definition semi : ascii := ";"%char.
(** The character of sqlitetd.py 390. *)
Definition newline : ascii := "010"%char.
(** [c == "'"], sqlitetd.py 27. *)
Definition is_quote (c : ascii) : bool := Ascii.eqb c quote.

(** ** Literals *)

(** sqlitetd.py 18-31; [prev] is [x\[i-1\]], which for [i = 0] is the last character. *)
Fixpoint fix_loop (prev : ascii) (x : text) : text :=
  match x with
  | [] => []
  | c :: x' =>
      let following := match x' with [] => false | d :: _ => is_quote d end in
      (if negb (is_quote c) || is_quote prev || following then [c] else [quote; quote]) ++ fix_loop c x'
  end.
(** sqlitetd.py 18-31 [_fix_str]. *)
Definition fix_str (x : text) : text := fix_loop (last x quote) x.

(** ["'%s'" %], sqlitetd.py 36, 38. *)
Definition quoted (x : text) : text := quote :: x ++ [quote].

Section Sql.
  Variable date_of : value -> option Z.
  Variable float_of : value -> option value.
  (** [str] of a finite number and of a datetime. *)
  Variable show_num : Z -> text.
  Variable show_date : Z -> text.
  (** The number that SQLite finds in a text (column affinity). *)
  Variable sql_number : string -> option num.

  (** sqlitetd.py 33-41 *)
  Definition insert_format (v : value) : text :=
    match v with
    | VStr s => quoted (fix_str (txt s))
    | VNum PInf => quoted (txt "inf")
    | VNum NInf => quoted (txt "-inf")
    | VDate d => quoted (show_date d)
    | VNone => txt "null"
    | VNum (Fin z) => show_num z
    | VNaN => txt "nan"
    | VBool b => txt (if b then "True" else "False")
    end.

  (** ** Statements ([",".join], sqlitetd.py 294-295) *)

  Fixpoint commas (l : list text) : text :=
    match l with
    | [] => []
    | [x] => x
    | x :: l' => x ++ txt "," ++ commas l'
    end.
  (** sqlitetd.py 49-50 [_brackets]. *)
  Definition bracket (x : string) : text := txt "[" ++ txt x ++ txt "]".

  (** sqlitetd.py 294-295, 302-304 *)
  Definition template (t : string) (fields : list string) (hole : text) : text :=
    txt "INSERT INTO " ++ bracket t ++ txt " (" ++ commas (map bracket fields) ++ txt ") VALUES (" ++
    commas (map (fun _ => hole) fields) ++ txt ")".

  (** [str % args].  Conversions other than [%s] and [%%] (with flags, widths or
      another type) are taken to raise (sqlitetd.py 297, 307). *)
  Fixpoint pyformat (tpl : text) (args : list text) : outcome text :=
    match tpl with
    | [] => match args with [] => Ret [] | _ => Raise end
    | c :: tpl' =>
        if Ascii.eqb c "%" then
          match tpl' with
          | d :: tpl'' =>
              if Ascii.eqb d "s" then
                match args with
                | a :: args' => bindO (pyformat tpl'' args') (fun r => Ret (a ++ r))
                | [] => Raise
                end
              else if Ascii.eqb d "%" then bindO (pyformat tpl'' args) (fun r => Ret (d :: r))
              else Raise
          | [] => Raise
          end
        else bindO (pyformat tpl' args) (fun r => Ret (c :: r))
    end.

  (** sqlitetd.py 278-281 *)
  Definition write_data_cell (f : factory) (t x : string) (v : value) : outcome value :=
    match v with
    | VBool b => Ret (VStr (if b then "True" else "False"))
    | _ => fst (write_cell date_of (mkIO f []) t x v)
    end.

  (** sqlitetd.py 282-310: the cells of the rows of one table; only keyed tables are
      converted. *)
  Definition out_rows (f : factory) (t : string) (ts : tschema) (tb : otable) : outcome (list (list value)) :=
    match tb with
    | OKeyed _ => mapO (fun r => mapO (fun fx => write_data_cell f t (fst fx) (snd fx)) (combine (tfields ts) r)) (full_rows tb)
    | OListed l => Ret l
    end.

  (** sqlitetd.py 282-310, [as_sql]. *)
  Definition data_sql (f : factory) (d : obj) : outcome (list text) :=
    bindO (mapO (fun tts =>
      bindO (out_rows f (fst tts) (snd tts) (d (fst tts))) (fun rows =>
        mapO (fun r => bindO (pyformat (template (fst tts) (tfields (snd tts)) (txt "%s")) (map insert_format r))
                         (fun s => Ret (s ++ [semi]))) rows)) (plain_schema f))
      (fun l => Ret (List.concat l)).

  (** sqlitetd.py 386-390: the text of the file. *)
  Definition sql_file (statements : list text) : text := flat_map (fun s => s ++ [newline]) statements.

  (** [str.split(";")] (sqlitetd.py 145). *)
  Fixpoint split_semi (x : text) : list text :=
    match x with
    | [] => [[]]
    | c :: x' =>
        if Ascii.eqb c semi then [] :: split_semi x'
        else match split_semi x' with p :: r => (c :: p) :: r | [] => [[c]] end
    end.

  (** ** The database *)

  (** sqlitetd.py 187-195 *)
  Definition read_data_cell (f : factory) (t x : string) (v : value) : outcome value :=
    let general := fst (read_cell date_of float_of (mkIO f []) t x v) in
    match v with
    | VStr s =>
        let l := lower s in
        if (String.eqb l "inf" || String.eqb l "-inf") && value_eqb (f_flag f) (VStr "N/A") &&
           negb (String.eqb t "parameters" && has_params f)
        then Ret (VNum (if String.eqb l "inf" then PInf else NInf))
        else if String.eqb l "true" then Ret (VBool true)
        else if String.eqb l "false" then Ret (VBool false)
        else general
    | _ => general
    end.

  (** What sqlite3 binds for a Python value: booleans are integers, NaN is NULL,
      datetimes are text (sqlitetd.py 356). *)
  Definition bound (v : value) : value :=
    match v with
    | VBool b => VNum (of_int (if b then 1 else 0))
    | VNaN => VNone
    | VDate d => VStr (string_of_list_ascii (show_date d))
    | _ => v
    end.

  (** sqlitetd.py 251-266: only data fields have a type; it is numeric if the default is a
      number (INT or FLOAT). *)
  Definition numeric_column (f : factory) (t : string) (ts : tschema) (x : string) : bool :=
    mem_str x (tdf ts) && negb (String.eqb t "parameters" && has_params f) &&
    match cell_default (f_defaults f) t x with VNum _ | VNaN => true | _ => false end.

  (** SQLite: a column with numeric affinity turns text that is a number into
      the number; other columns keep what they are given (columns of sqlitetd.py 255-264). *)
  Definition stored (f : factory) (t : string) (ts : tschema) (x : string) (v : value) : value :=
    match bound v with
    | VStr s => if numeric_column f t ts x then match sql_number s with Some n => VNum n | None => VStr s end else VStr s
    | w => w
    end.

  (** The rows of each table, sqlitetd.py 345-356. *)
  Definition database := string -> list (list value).

  (** The primary key constraint: no two rows with the same key, unless it
      contains a NULL (sqlitetd.py 273-274). *)
  Fixpoint keys_unique (n : nat) (rows : list (list value)) : bool :=
    match rows with
    | [] => true
    | r :: rows' =>
        (existsb (fun v => value_eqb v VNone) (firstn n r) ||
         forallb (fun r' => negb (list_eqb value_eqb (firstn n r) (firstn n r'))) rows') && keys_unique n rows'
    end.

  (** sqlitetd.py 345-356 for a new file: the rows stored in each table. *)
  Definition stored_rows (f : factory) (t : string) (ts : tschema) (tb : otable) : outcome (list (list value)) :=
    bindO (out_rows f t ts tb) (fun rows =>
      let rows' := map (fun r => map (fun fx => stored f t ts (fst fx) (snd fx)) (combine (tfields ts) r)) rows in
      if keys_unique (List.length (tpk ts)) rows' || Nat.eqb (List.length (tpk ts)) 0 then Ret rows' else Raise).

  (** sqlitetd.py 323-356 [write_db_data]. *)
  Definition write_db (f : factory) (d : obj) : outcome (list (string * list (list value))) :=
    mapO (fun tts => bindO (stored_rows f (fst tts) (snd tts) (d (fst tts))) (fun rows => Ret (fst tts, rows))) (plain_schema f).

  (** sqlitetd.py 214-239: the argument of the constructor for one table. *)
  Definition table_in (f : factory) (t : string) (ts : tschema) (rows : list (list value)) : outcome tablein :=
    bindO (mapO (fun r => mapO (fun fx => read_data_cell f t (fst fx) (snd fx)) (combine (tfields ts) r)) rows) (fun rs =>
      Ret (match tpk ts with
           | [] => TRows (map RSeq rs)
           | _ => TDict (dict_of pkey_eqb (map (fun r =>
                    (match firstn (List.length (tpk ts)) r with [v] => KAtom v | l => KTup l end,
                     RSeq (skipn (List.length (tpk ts)) r))) rs))
           end)).

  (** sqlitetd.py 71-78, 214-239; a table that is not in the database is left out. *)
  Definition sql_create (f : factory) (db : list (string * list (list value))) : outcome obj :=
    bindO (mapO (fun tts => match dget String.eqb db (fst tts) with
                            | None => Ret []
                            | Some rows => bindO (table_in f (fst tts) (snd tts) rows) (fun i => Ret [(fst tts, i)])
                            end) (plain_schema f))
      (fun l => match construct (plain_schema f) (f_defaults f) (dup_mode f) (List.concat l) with
                | None => Raise
                | Some d => Ret (adjust_params date_of float_of f d)
                end).
End Sql.
