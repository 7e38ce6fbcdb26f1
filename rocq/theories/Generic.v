(** * Objects with generic tables: utils.py 837-846 [create_generic_free] and the writers that use it (csvtd.py
    242-244, sqlitetd.py 342-344 and 380-383, xls.py 407-410), and the readers of generic tables (csvtd.py
    100-101, 169-189, 210-211; sqlitetd.py 134-148, 214-239).

    The DataFrame of a generic table has columns named by strings.  Simplified: the object that is built anew at utils.py 846 has
    the rows of the old one (C30).  Not modelled: generator tables beside generic ones, generic
    tables read from Excel files (pandas reads them), the check of utils.py 838. *)
From Coq Require Import ZArith Bool List String.
From Verif Require Import PyVal PyDict PyStr TypeDict Data FindTypes FK Obj Factory InfIO Params Names Utils Json Csv Sql FileDb Xls.
Import ListNotations.
Local Open Scope string_scope.
Local Open Scope list_scope.

(** The DataFrame of a generic table (ticdatfactory.py 783-784). *)
Record gframe : Type := mkG { g_cols : list string; g_rows : list (list value) }.
(** The generic tables of an object (ticdatfactory.py 783-784). *)
Definition generics := string -> gframe.
(** A DataFrame made of no rows has no columns (ticdatfactory.py 784, 846-847). *)
Definition frame_from (cols : list string) (rows : list (list value)) : gframe :=
  match rows with [] => mkG [] [] | _ => mkG cols rows end.

(** [tdf.generic_tables] (ticdatfactory.py 672). *)
Definition generic_tables (f : factory) : list string :=
  flat_map (fun td => match snd td with Generic => [fst td] | Fields _ => [] end) (f_decl f).
(** utils.py 839 *)
Definition has_generics (f : factory) : bool := match generic_tables f with [] => false | _ => true end.

(** utils.py 841-844: the tables with fields as they are, and each generic table with a row as a table without key. *)
Definition free_decl (f : factory) (g : generics) : list (string * tdecl) :=
  map (fun tts => (fst tts, Fields (snd tts))) (plain_schema f) ++
  flat_map (fun t => match g_rows (g t) with [] => [] | _ => [(t, Fields (mkT [] (g_cols (g t))))] end) (generic_tables f).
(** utils.py 845: a new factory of that schema, which has none of the settings of the old one. *)
Definition free_factory (f : factory) (g : generics) : option factory := init (free_decl f g).
(** utils.py 846 *)
Definition free_obj (f : factory) (g : generics) (d : obj) : obj :=
  fun t => if is_generic f t then OListed (g_rows (g t)) else d t.

Section Generic.
  Variable date_of : value -> option Z.
  Variable float_of : value -> option value.
  Variable show_num : num -> string.
  Variable show_date : Z -> string.

  (** ** CSV *)

  (** csvtd.py 239-273 [write_directory]: the call at 244 does not pass on [case_space_table_names]. *)
  Definition gen_csv_save (f : factory) (headers pretty allow : bool) (dir : directory) (g : generics) (d : obj) : outcome directory :=
    if has_generics f then
      match free_factory f g with
      | None => Raise
      | Some f' => csv_save date_of show_num show_date f' headers false allow dir (free_obj f g d)
      end
    else csv_save date_of show_num show_date f headers pretty allow dir d.

  (** csvtd.py 92-110 for a field of a generic table: it has no type, and no default that is None or a number, but 101
      asks for a float; that is as if it had the default 0. *)
  Definition gen_csv_cell (f : factory) (t x : string) (v : value) : outcome value :=
    csv_with date_of float_of f (Some (VNum (of_int 0)), None) t x v.

  (** csvtd.py 180-189 when [fieldnames] are the columns of the file. *)
  Definition gen_csv_row (f : factory) (t : string) (h : list string) (r : list string) : outcome (list value) :=
    if Nat.ltb (List.length h) (List.length r) then Raise
    else
      let row := dict_of String.eqb (combine h (short (List.length h) r)) in
      if forallb (fun x => Nat.eqb (List.length (columns_of (map fst row) x)) 1) (map fst row)
      then mapO (fun xv => gen_csv_cell f t (fst xv) (snd xv)) row
      else Raise.
  (** csvtd.py 169-189, 191-211 and ticdatfactory.py 784 for one file; without rows the table is left out (120). *)
  Definition gen_csv_frame (f : factory) (t : string) (file : csv_file) : outcome gframe :=
    match file with
    | [] => Ret (mkG [] [])
    | h :: body =>
        bindO (mapO (gen_csv_row f t h) (filter nonblank body)) (fun rows =>
          Ret (frame_from (map fst (dict_of String.eqb (map (fun x => (x, tt)) h))) rows))
    end.

  (** csvtd.py 72-83 [create_tic_dat]: the tables with fields, and the generic ones. *)
  Definition gen_csv_create (f : factory) (headers : bool) (dir : directory) : outcome (obj * list (string * gframe)) :=
    if has_generics f && negb headers then Raise
    else
      bindO (csv_create date_of float_of f headers dir) (fun d =>
        bindO (mapO (fun t => bindO (file_of dir t) (fun file =>
                 match file with
                 | None => Ret (t, mkG [] [])
                 | Some file => bindO (gen_csv_frame f t file) (fun fr => Ret (t, fr))
                 end)) (generic_tables f)) (fun l => Ret (d, l))).

  (** ** SQLite *)

  Variable store : string -> value -> option value.
  Variable key_free : list (list value) -> list value -> bool.
  Variable sql_default : value -> value.
  (** Can the name stand for a table without brackets in a PRAGMA? (sqlitetd.py 225) *)
  Variable pragma_name : string -> bool.

  (** sqlitetd.py 337-356 [write_db_data] *)
  Definition gen_sql_write (f : factory) (allow : bool) (g : generics) (d : obj) (path : option filedb) : bool * option filedb :=
    if has_generics f then
      match free_factory f g with
      | None => (false, path)
      | Some f' => sql_write_file store key_free date_of sql_default f' allow (free_obj f g d) path
      end
    else sql_write_file store key_free date_of sql_default f allow d path.

  (** sqlitetd.py 222-230 for the generic table [t] that is called [n] in the file: the columns are those of the table called
      [t].  SQLite shows no column for a table that does not exist, and refuses a SELECT without columns. *)
  Definition gen_sql_frame (f : factory) (db : filedb) (t n : string) : outcome gframe :=
    if pragma_name t then
      match find_table db t, find_table db n with
      | Some dt, Some dn =>
          let cols := map dc_name (dt_cols dt) in
          if forallb (has_col dn) cols then
            bindO (mapO (fun r => mapO (fun xv => read_data_cell date_of float_of f t (fst xv) (snd xv)) (combine cols r))
                     (db_select dn cols)) (fun rows => Ret (frame_from cols rows))
          else Raise
      | _, _ => Raise
      end
    else Raise.

  (** sqlitetd.py 71-92, 204-239 [create_tic_dat] *)
  Definition gen_sql_read (f : factory) (db : filedb) : outcome (obj * list (string * gframe)) :=
    bindO (sql_read_file date_of float_of f db) (fun d =>
      bindO (mapO (fun t => bindO (get_db_table (map fst db) t) (fun o =>
               match o with
               | None => Ret (t, mkG [] [])
               | Some n => bindO (gen_sql_frame f db t n) (fun fr => Ret (t, fr))
               end)) (generic_tables f)) (fun l => Ret (d, l))).

  (** sqlitetd.py 147-148, 214-239: the generic tables of a database made from an SQL text file, where every table of the schema
      counts as found. *)
  Definition gen_con_frames (f : factory) (db : filedb) : outcome (list (string * gframe)) :=
    mapO (fun t => bindO (gen_sql_frame f db t t) (fun fr => Ret (t, fr))) (generic_tables f).

  (** sqlitetd.py 379-383, 386-388: the tables that an SQL text file creates; without [include_schema] only the generic ones. *)
  Definition gen_script_tables (f : factory) (include_schema : bool) (g : generics) : list string :=
    let must := if include_schema then map fst (f_decl f) else [] in
    if has_generics f then
      filter (fun t => mem_str t (must ++ generic_tables f)) (map fst (free_decl f g))
    else must.

  (** ** Excel *)

  Variable saved : value -> outcome value.

  (** xls.py 398-419 [write_file] *)
  Definition gen_xls_write (f : factory) (xls pretty : bool) (g : generics) (d : obj) : outcome (list (string * sheet)) :=
    if sheets_differ (map fst (f_decl f)) then
      if has_generics f then
        match free_factory f g with
        | None => Raise
        | Some f' => xls_write date_of show_date saved f' xls pretty (free_obj f g d)
        end
      else xls_write date_of show_date saved f xls pretty d
    else Raise.
End Generic.
