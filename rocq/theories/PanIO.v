(** * Reading and writing PanDat objects (pandatio.py; pandatfactory.py 441-573).

    Pandas reads and writes the files: what [read_csv], [read_sql], [read_excel] and [read_json] return
    for the tables found is given as DataFrames, with the integer index and differently named columns.
    Which file, sheet, key or database table is read for a table is in Names.v.  [settle] (Frames.v)
    is what pandas does to a column when it builds a DataFrame from lists; [Series.apply] and column
    assignment are taken to keep the cells they are given.  Generic tables hold any DataFrame and are left out
    of the results; json rows are lists.  Not modelled: [write_file_pd], keyword arguments passed on to pandas. *)
From Coq Require Import ZArith Bool List String Ascii Arith.
From Verif Require Import PyVal PyDict PyStr TypeDict Data FindTypes FK Factory InfIO Params Names Utils Obj Json Frames.
Import ListNotations.
Local Open Scope string_scope.
Local Open Scope list_scope.

(** ** Fields missing in what was read: pandatio.py 123-131, 316-325, 426-434, 563-572

    The code goes through a set; the order of the columns added is lost at 43. *)
Definition lacking (ts : tschema) (fr : frame) : list string := filter (fun x => negb (has_col fr x)) (tfields ts).

(** pandatio.py 123-131, 316-325, 426-434, 563-572 for one table. *)
Definition supply (fill : bool) (dv : defaults) (t : string) (ts : tschema) (fr : frame) : frame :=
  if fill
  then fold_left (fun fr x => match dget String.eqb (defaults_of dv t) x with Some d => add_col fr x d | None => fr end) (lacking ts fr) fr
  else fr.

(** pandatio.py 123-131, 316-325, 426-434, 563-572: missing fields are supplied, or refused. *)
Definition supplied (fill : bool) (sch : schema) (dv : defaults) (src : list (string * frame)) : option (list (string * frame)) :=
  map_opt (fun tf => match dget String.eqb sch (fst tf) with
                     | Some ts => match lacking ts (supply fill dv (fst tf) ts (snd tf)) with
                                  | [] => Some (fst tf, supply fill dv (fst tf) ts (snd tf))
                                  | _ => None
                                  end
                     | None => None
                     end) src.

(** pandatio.py 43: [getattr(pandat, t)[flds]] *)
Definition pick (ts : tschema) (fr : frame) : list (list value) :=
  map (fun r => map (fun x => match cell_of (fr_cols fr) (snd r) x with Some v => v | None => VNone end) (tfields ts)) (fr_rows fr).

(** A text that is "none" in any mixture of cases (pandatfactory.py 457, 507). *)
Definition none_text (v : value) : bool := match v with VStr s => String.eqb (lower s) "none" | _ => false end.

Section PanIO.
  Variable date_of : value -> option Z.
  Variable float_of : value -> option value.
  Variable settle : list value -> list value.
  (** [str(x)] of a datetime, and of any cell. *)
  Variable show_date : Z -> string.
  Variable str_of : value -> string.

  (** ** pandatfactory.py 441-520 [_general_post_read_adjustment] *)

  (** pandatfactory.py 433-435 *)
  Definition text_only (dt : dtype) : bool := negb (datetime dt) && negb (number_allowed dt) && strs_truthy (strings_allowed dt).

  (** pandatfactory.py 478-491 for one cell; [b] is the infinity bias of the field. *)
  Definition post_cell (json : bool) (f : factory) (b : option bool) (t x : string) (v : value) : value :=
    let w := pan_read_cell date_of float_of f b t x v in
    match field_type f t x with
    | Some dt => if json && text_only dt && nullable dt && none_text w then VNone else w
    | None => w
    end.

  (** pandatfactory.py 497-518; [push_parameters_to_be_valid] is True here (pandatio.py 37). *)
  Definition fix_value (json : bool) (f : factory) (k v : value) : value :=
    let td := param_type f k in
    let valid w := match td with Some t => valid_data (is_date date_of) t w | None => true end in
    match (match td, v with
           | Some t, VStr _ => if datetime t then match adjust date_of v with Some d => if valid (VDate d) then Some d else None | None => None end
                               else None
           | _, _ => None
           end) with
    | Some d => VDate d
    | None =>
        if json && none_text v && valid VNone then VNone
        else if match td with Some t => negb (number_allowed t) | None => false end
             then if negb (valid v) && valid (VStr (str_of v)) then VStr (str_of v) else v
             else match to_float float_of v with Some w => w | None => v end
    end.

  (** pandatfactory.py 465-519 for the table [t] with the fields [fs].  496: [schema()["parameters"]] is one key field and one data field. *)
  Definition post_table (json : bool) (f : factory) (t : string) (fs : list string) (l : list (list value)) : outcome (list (list value)) :=
    if String.eqb t "parameters" then
      if has_params f then mapO (fun r => match r with [k; v] => Ret [k; fix_value json f k v] | _ => Raise end) l else Ret l
    else
      let l1 := match f_flag f with VNum m => pan_read_num m fs l | _ => l end in
      match biases date_of f t fs with
      | Ret bs => Ret (map (fun r => map (fun fv => post_cell json f (bs (fst fv)) t (fst fv) (snd fv)) (combine fs r)) l1)
      | Raise => Raise
      end.

  (** ** pandatio.py 37-48 [_clean_pandat_creator] *)
  Definition clean (json : bool) (f : factory) (inputs : list (string * pattr)) : outcome (string -> list (list value)) :=
    match pan_dat settle (plain_schema f) (f_defaults f) inputs with
    | None => Raise
    | Some d =>
        bindO (mapO (fun tts => bindO (post_table json f (fst tts) (tfields (snd tts)) (pick (snd tts) (d (fst tts))))
                                  (fun l => Ret (fst tts, l))) (plain_schema f))
          (fun l => Ret (fun t => dget_or String.eqb l t []))
    end.

  (** ** [create_pan_dat] of the four readers, from the DataFrames of the tables found: 123-136, 312-326, 426-439, 559-573 *)
  Definition create_frames (json fill : bool) (f : factory) (src : list (string * frame)) : outcome (string -> list (list value)) :=
    match supplied fill (plain_schema f) (f_defaults f) src with
    | None => Raise
    | Some src' => clean json f (map (fun tf => (fst tf, PFrame (snd tf))) src')
    end.

  (** pandatio.py 521-578: Excel; trailing rows without data are pruned at the end. *)
  Definition create_xls (fill : bool) (f : factory) (src : list (string * frame)) : outcome (string -> list (list value)) :=
    bindO (create_frames false fill f src) (fun d =>
      if value_eqb (f_xlsx f) (VStr "prune")
      then bindO (mapO (fun tts => bindO (remove_trailing_all_nan (forallb is_null) (d (fst tts))) (fun l => Ret (fst tts, l))) (plain_schema f))
             (fun l => Ret (fun t => dget_or String.eqb l t []))
      else Ret d).

  (** ** JSON *)

  (** What a key of a document holds: rows, an object that [read_json] turns into a DataFrame, or something else (pandatio.py 95-122). *)
  Inductive jentry : Type :=
  | JRows : list (list value) -> jentry
  | JFrame : frame -> jentry
  | JOther : jentry.

  (** pandatio.py 138-147; generic tables too. *)
  Definition json_sources (f : factory) (doc : list (string * jentry)) : outcome (list (string * jentry)) :=
    bindO (mapO (fun t => bindO (get_json_key (map fst doc) t) (fun k =>
             Ret match k with
                 | Some k => match dget String.eqb doc k with Some e => [(t, e)] | None => [] end
                 | None => []
                 end)) (map fst (f_decl f)))
      (fun l => Ret (List.concat l)).

  (** pandatio.py 98-136 *)
  Definition create_json (fill : bool) (f : factory) (doc : list (string * jentry)) : outcome (string -> list (list value)) :=
    bindO (json_sources f doc) (fun found =>
      let mine := filter (fun te => match table_of f (fst te) with Some _ => true | None => false end) found in
      if forallb (fun ke => match snd ke with JRows _ => true | _ => false end) doc then
        clean true f (flat_map (fun te => match snd te with JRows rows => [(fst te, PRows (width rows) rows)] | _ => [] end) mine)
      else if forallb (fun ke => match snd ke with JFrame _ => true | _ => false end) doc then
        create_frames true fill f (flat_map (fun te => match snd te with JFrame fr => [(fst te, fr)] | _ => [] end) mine)
      else Raise).

  (** pandatio.py 165-170 *)
  Definition json_fix (v : value) : value :=
    if is_null v then VNone else match v with VDate d => VStr (show_date d) | _ => v end.

  (** pandatio.py 148-180 [write_file].  [schema()] has '*' for a generic table, which 172 cannot take apart. *)
  Definition write_json (f : factory) (d : string -> list (list value)) : outcome (list (string * jentry)) :=
    mapO (fun td => match snd td with
                    | Generic => Raise
                    | Fields ts => bindO (pan_write date_of f (fst td) (tfields ts) (d (fst td)))
                                     (fun l => Ret (fst td, JRows (map (map json_fix) l)))
                    end) (f_decl f).
End PanIO.

(** ** Several writes to one place

    A directory or database as names with contents.  CSV (340-374): every file is replaced. *)
Definition csv_put {C} (asked : bool) (tables : list string) (d : string -> C) (dir : list (string * C)) : list (string * C) :=
  fold_left (fun dir t => dset String.eqb dir (csv_name asked tables t) (d t)) tables dir.

(** pandatio.py 328-339 and 311, one table of a directory of files. *)
Definition csv_get {C} (dir : list (string * C)) (t : string) : outcome (option C) :=
  match get_file_path (map (fun e => (fst e, true)) dir) t with
  | Raise => Raise
  | Ret None => Ret None
  | Ret (Some n) => Ret (dget String.eqb dir n)
  end.

(** SQLite (457-500): [to_sql] with if_exists='replace' drops a table of exactly this name and creates it; to create
    a table whose name differs from another one in case only is an error, after which nothing more is written. *)
Definition sql_put_one {C} (db : list (string * C)) (n : string) (c : C) : option (list (string * C)) :=
  let db' := filter (fun e => negb (String.eqb (fst e) n)) db in
  if mem_str (lower n) (map (fun e => lower (fst e)) db') then None else Some (db' ++ [(n, c)]).

(** pandatio.py 492-510: [to_sql] for each table. *)
Fixpoint sql_put {C} (name : string -> string) (d : string -> C) (tables : list string) (db : list (string * C)) : list (string * C) * bool :=
  match tables with
  | [] => (db, true)
  | t :: rest => match sql_put_one db (name t) (d t) with
                 | Some db' => sql_put name d rest db'
                 | None => (db, false)
                 end
  end.

(** pandatio.py 441-456 and 400-425: the table read for each name. *)
Definition sql_get {C} (db : list (string * C)) (t : string) : outcome (option C) :=
  match get_db_table (map fst db) t with
  | Raise => Raise
  | Ret None => Ret None
  | Ret (Some n) => Ret (option_map snd (find (fun e => String.eqb (lower (fst e)) (lower n)) db))
  end.
